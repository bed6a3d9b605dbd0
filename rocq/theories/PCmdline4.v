(** The command lines in evaluate.py and README.md. *)
From Coq Require Import ZArith NArith Ascii String Lia.
From Flocq Require Import IEEE754.Binary IEEE754.Bits.
From Verif Require Import Base Num MDouble MPrint MBalance PTranscript PTranscript2 SpecPrint MApp SpecApp MTranscript SpecTranscript MCmdline SpecCmdline PCmdline PCmdline2 PCmdline3.
From stdpp Require Import list.
Local Open Scope string_scope.

(** * Words *)
Lemma occurs_cons c a s : ~ occurs c (String a s) -> a <> c /\ ~ occurs c s.
Proof.
  intros H. split; [intros ->; apply H; by exists "", s|]. intros (x&y&->). apply H. by exists (String a x), y.
Qed.
Lemma words_cons a s : ~ occurs " " a -> words (a ++ String " " s) = a :: words s.
Proof.
  induction a as [|c a IH]; [done|]. intros [H1 H2]%occurs_cons. rewrite app_cons. cbn [words].
  destruct (Ascii.eqb_spec c " "); [done|]. by rewrite IH.
Qed.
Lemma words_one a : ~ occurs " " a -> words a = [a].
Proof.
  induction a as [|c a IH]; [done|]. intros [H1 H2]%occurs_cons. cbn [words]. destruct (Ascii.eqb_spec c " "); [done|]. by rewrite IH.
Qed.
Lemma occurs_has c s : ~ occurs c s <-> has_char c s = false.
Proof.
  split; intros H.
  - destruct (has_char c s) eqn:E; [|done]. apply has_spec in E. done.
  - intros H'. apply has_spec in H'. congruence.
Qed.
Lemma no_blank_int p n : ~ occurs " " p -> ~ occurs " " (p ++ show_int n).
Proof.
  rewrite !occurs_has, has_app. intros ->. by apply (uint_has " ").
Qed.
Lemma no_blank_app p s : ~ occurs " " p -> ~ occurs " " s -> ~ occurs " " (p ++ s).
Proof. rewrite !occurs_has, has_app. by intros -> ->. Qed.
Lemma decimal_show n : decimal (show_int n) n.
Proof.
  unfold decimal, show_int. destruct (read_uint (N.to_uint n) 0 0) as (k & _ & Hk & ->).
  exists k. split; [exact (Hk (to_uint_nonnil n))|]. by rewrite uint_N, DecimalN.Unsigned.of_to.
Qed.
Lemma means_int strtod n : (n < 2 ^ 64)%N -> means strtod TUnsigned (show_int n) (VUnsigned n).
Proof. intros H. apply (means_plain strtod "" (show_int n) n); [left|apply decimal_show|done]. Qed.
Lemma show_int_nonempty n : show_int n <> "".
Proof. intros E. destruct (decimal_show n) as (k&Hk&H). rewrite E in H. cbn in H. injection H as H1 H2. lia. Qed.

Lemma evaluate_words n repetition transposed blockInput : evaluate_args n repetition transposed blockInput =
  ["--n-value=" ++ show_int n; "--repetitions=" ++ show_int repetition; "--small-block-size=128"; "--verbose=0"; "--check=false";
   "--algorithm=pseudodynamic"; "--hpx:cores=16"; "--hpx:thread=16"; "--max-work-difference=0"; "--transposed=" ++ str_bool transposed;
   "--block-input=" ++ show_int blockInput].
Proof.
  unfold evaluate_args.
  assert (E : evaluate_cmd n repetition transposed blockInput =
    "release/matrix_multiply" ++ String " " (("--n-value=" ++ show_int n) ++ String " " (("--repetitions=" ++ show_int repetition) ++ String " "
     ("--small-block-size=128" ++ String " " ("--verbose=0" ++ String " " ("--check=false" ++ String " " ("--algorithm=pseudodynamic" ++ String " "
     ("--hpx:cores=16" ++ String " " ("--hpx:thread=16" ++ String " " ("--max-work-difference=0" ++ String " "
     (("--transposed=" ++ str_bool transposed) ++ String " " ("--block-input=" ++ show_int blockInput)))))))))))).
  { unfold evaluate_cmd, put. cbn [fold_right]. rewrite PCmdline.app_nil.
    change (show_int 16) with "16". by destruct transposed. }
  rewrite E. rewrite words_cons by (by apply occurs_has). cbn [tail].
  repeat (rewrite words_cons; [|first [by apply occurs_has|apply no_blank_int; by apply occurs_has|destruct transposed; by apply occurs_has]]).
  rewrite words_one; [done|]. apply no_blank_int. by apply occurs_has.
Qed.
Lemma readme_words algorithm : ~ occurs " " algorithm -> readme_args algorithm =
  ["--n-value=8192"; "--check=False"; "--algorithm=" ++ algorithm; "--block-result=128"; "--block-input=128"; "--hpx:threads=4"].
Proof.
  intros Ha. unfold readme_args.
  assert (E : readme_cmd algorithm = "./release/matrix_multiply" ++ String " " ("--n-value=8192" ++ String " " ("--check=False" ++ String " "
    (("--algorithm=" ++ algorithm) ++ String " " ("--block-result=128" ++ String " " ("--block-input=128" ++ String " " "--hpx:threads=4")))))).
  { done. }
  rewrite E. rewrite words_cons by (by apply occurs_has). cbn [tail].
  repeat (rewrite words_cons; [|first [by apply occurs_has|apply no_blank_app; [by apply occurs_has|done]]]).
  rewrite words_one by (by apply occurs_has). done.
Qed.

(** * Foreign words *)
Lemma foreign_option name text : no_equals name -> text = "" \/ begins "=" text -> name <> "" \/ text <> "" ->
  forallb (fun r => negb (String.prefix name (r_name r))) table = true -> foreign ("--" ++ name ++ text).
Proof.
  intros Hn Ht Hne Hb. split.
  - destruct name, text; cbn; done.
  - right. exists name, text. split_and!; try done. intros r Hr H. rewrite forallb_forall in Hb. apply elem_of_list_In in Hr.
    specialize (Hb r Hr). apply prefix_spec in H. by rewrite H in Hb.
Qed.
Lemma no_equals_has s : has_char "=" s = false -> no_equals s.
Proof.
  intros H p q ->. assert (Hx : ~ occurs "=" (p ++ "=" ++ q)) by (by apply occurs_has). apply Hx. by exists p, q.
Qed.
Lemma foreign_small : foreign "--small-block-size=128".
Proof. apply (foreign_option "small-block-size" "=128"); [by apply no_equals_has|right; by exists "128"|by left|done]. Qed.
Lemma foreign_cores : foreign "--hpx:cores=16".
Proof. apply (foreign_option "hpx:cores" "=16"); [by apply no_equals_has|right; by exists "16"|by left|done]. Qed.
Lemma foreign_thread : foreign "--hpx:thread=16".
Proof. apply (foreign_option "hpx:thread" "=16"); [by apply no_equals_has|right; by exists "16"|by left|done]. Qed.
Lemma foreign_threads : foreign "--hpx:threads=4".
Proof. apply (foreign_option "hpx:threads" "=4"); [by apply no_equals_has|right; by exists "4"|by left|done]. Qed.

(** What a word is for [sets] is determined. *)
Lemma option_not_foreign p r text : r ∈ table -> names p r -> ~ foreign ("--" ++ p ++ "=" ++ text).
Proof.
  intros Hr Hp [_ [H|(name&rest&E&Hn&Ht&H)]].
  - apply H. by eexists.
  - assert (Hpn : no_equals p) by (by eapply names_no_equals). cbn in E. injection E as E.
    assert (Es : split_name (p ++ "=" ++ text) = split_name (name ++ rest)) by (by rewrite E).
    rewrite split_some in Es by done. destruct Ht as [->|[q ->]].
    + rewrite PCmdline.app_nil, split_none in Es by done. done.
    + rewrite split_some in Es by done. injection Es as -> _. apply (H r Hr). destruct Hp as [->|[Hp _]]; [|done]. exists "". by rewrite PCmdline.app_nil.
Qed.
