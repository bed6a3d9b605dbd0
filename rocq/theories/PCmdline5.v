(** The command lines in evaluate.py and README.md, continued: what they select. *)
From Coq Require Import ZArith NArith Ascii String Lia.
From Flocq Require Import IEEE754.Binary IEEE754.Bits.
From stdpp Require Import list.
From Verif Require Import Base Conc Num MDouble MPrint MBalance PTranscript PTranscript2 SpecPrint MApp SpecApp MTranscript SpecTranscript MCmdline SpecCmdline PCmdline PCmdline2 PCmdline3 PCmdline4.
Local Open Scope string_scope.

Section Lines.
  Context (strtod : string -> option binary64) (accepts : string -> bool).
  Local Notation parse := (parse strtod accepts).

  Lemma parse_foreign m w rest : foreign w -> parse m (w :: rest) = if accepts w then parse m rest else Rejected.
  Proof.
    intros Hf. pose proof (proj1 Hf) as Hw. cbn [MCmdline.parse]. destruct (String.eqb_spec w "--") as [|_]; [done|].
    by apply (foreign_words w Hw) in Hf as [->|(name&text&->&->&_&_&->)].
  Qed.
  Lemma parse_adjacent m r text v rest : r ∈ table -> text <> "" -> means strtod (r_type r) text v -> r_name r ∉ m.*1 ->
    parse m (("--" ++ r_name r ++ "=" ++ text) :: rest) = parse ((r_name r, v) :: m) rest.
  Proof.
    intros Hr Ht Hv Hm. cbn [MCmdline.parse].
    assert (Hne : ("--" ++ r_name r ++ "=" ++ text =? "--") = false) by (destruct (r_name r); done). rewrite Hne.
    rewrite (proj2 (behind_spec "--" _ (r_name r ++ "=" ++ text)) eq_refl). rewrite split_some by (by eapply names_no_equals; [|left]).
    rewrite (proj2 (find_option_found (r_name r) r)) by (split; [done|by left]).
    destruct text as [|c text]; [done|].
    assert (E : store r (cast strtod (r_type r) (String c text)) m = Parsed ((r_name r, v) :: m)).
    { apply store_spec. exists v. split; [by apply cast_spec|done]. }
    destruct (r_type r) eqn:Et; try (rewrite E; reflexivity). by inversion Hv.
  Qed.
  Lemma row_in k r : nth_error table k = Some r -> r ∈ table.
  Proof. intros H. apply elem_of_list_In. by eapply nth_error_In. Qed.
  Lemma not_given (m : list (string * value)) name : existsb (fun p => p.1 =? name) m = false -> name ∉ m.*1.
  Proof. intros H Hx. apply given_spec in Hx. unfold given in Hx. congruence. Qed.

  Definition evaluate_set (n repetition : N) (transposed : bool) (blockInput : N) : list (string * value) :=
    [("block-input", VUnsigned blockInput); ("transposed", VBool transposed); ("max-work-difference", VUnsigned 0);
     ("algorithm", VString "pseudodynamic"); ("check", VBool false); ("verbose", VUnsigned 0);
     ("repetitions", VUnsigned repetition); ("n-value", VUnsigned n)].
  Lemma means_bool (b : bool) : means strtod TBool (str_bool b) (VBool b).
  Proof. apply cast_bool_spec. by destruct b. Qed.
  Lemma means_cast t s v : cast strtod t s = Some v -> means strtod t s v.
  Proof. apply cast_spec. Qed.
  Lemma evaluate_parse n repetition transposed blockInput : (n < 2 ^ 64)%N -> (repetition < 2 ^ 64)%N -> (blockInput < 2 ^ 64)%N ->
    parse [] (evaluate_args n repetition transposed blockInput) =
    if accepts "--small-block-size=128" && accepts "--hpx:cores=16" && accepts "--hpx:thread=16"
    then Parsed (evaluate_set n repetition transposed blockInput) else Rejected.
  Proof.
    intros Hn Hr Hb. rewrite evaluate_words.
    rewrite (parse_adjacent _ _ (show_int n) (VUnsigned n) _ (row_in 0 _ eq_refl)); [|apply show_int_nonempty|by apply means_int|by apply not_given].
    rewrite (parse_adjacent _ _ (show_int repetition) (VUnsigned repetition) _ (row_in 2 _ eq_refl)); [|apply show_int_nonempty|by apply means_int|by apply not_given].
    rewrite (parse_foreign _ _ _ foreign_small). destruct (accepts "--small-block-size=128"); [|done].
    rewrite (parse_adjacent _ _ "0" (VUnsigned 0) _ (row_in 3 _ eq_refl)); [|done|by apply means_cast|by apply not_given].
    rewrite (parse_adjacent _ _ "false" (VBool false) _ (row_in 6 _ eq_refl)); [|done|by apply means_cast|by apply not_given].
    rewrite (parse_adjacent _ _ "pseudodynamic" (VString "pseudodynamic") _ (row_in 7 _ eq_refl)); [|done|by apply means_cast|by apply not_given].
    rewrite (parse_foreign _ _ _ foreign_cores). destruct (accepts "--hpx:cores=16"); [|done].
    rewrite (parse_foreign _ _ _ foreign_thread). destruct (accepts "--hpx:thread=16"); [|done].
    rewrite (parse_adjacent _ _ "0" (VUnsigned 0) _ (row_in 9 _ eq_refl)); [|done|by apply means_cast|by apply not_given].
    rewrite (parse_adjacent _ _ (str_bool transposed) (VBool transposed) _ (row_in 1 _ eq_refl)); [|by destruct transposed|by apply means_bool|by apply not_given].
    rewrite (parse_adjacent _ _ (show_int blockInput) (VUnsigned blockInput) _ (row_in 5 _ eq_refl)); [|apply show_int_nonempty|by apply means_int|by apply not_given].
    reflexivity.
  Qed.
  Lemma evaluate_extract n repetition transposed blockInput : extract (evaluate_set n repetition transposed blockInput) =
    Some (Options (N.to_nat n) transposed (N.to_nat repetition) 0 128 (N.to_nat blockInput) false "pseudodynamic" 256 0 (rel64 five_percent) false).
  Proof. reflexivity. Qed.

  Definition readme_set (algorithm : string) : list (string * value) :=
    [("block-input", VUnsigned 128); ("block-result", VUnsigned 128); ("algorithm", VString algorithm); ("check", VBool false); ("n-value", VUnsigned 8192)].
  Lemma readme_parse algorithm : ~ occurs " " algorithm -> algorithm <> "" ->
    parse [] (readme_args algorithm) = if accepts "--hpx:threads=4" then Parsed (readme_set algorithm) else Rejected.
  Proof.
    intros Ha Hne. rewrite readme_words by done.
    rewrite (parse_adjacent _ _ "8192" (VUnsigned 8192) _ (row_in 0 _ eq_refl)); [|done|by apply means_cast|by apply not_given].
    rewrite (parse_adjacent _ _ "False" (VBool false) _ (row_in 6 _ eq_refl)); [|done|by apply means_cast|by apply not_given].
    rewrite (parse_adjacent _ _ algorithm (VString algorithm) _ (row_in 7 _ eq_refl)); [|done|by apply means_cast|by apply not_given].
    rewrite (parse_adjacent _ _ "128" (VUnsigned 128) _ (row_in 4 _ eq_refl)); [|done|by apply means_cast|by apply not_given].
    rewrite (parse_adjacent _ _ "128" (VUnsigned 128) _ (row_in 5 _ eq_refl)); [|done|by apply means_cast|by apply not_given].
    by rewrite (parse_foreign _ _ _ foreign_threads).
  Qed.
  Lemma readme_extract algorithm : extract (readme_set algorithm) = Some (readme_options (rel64 five_percent) algorithm).
  Proof. reflexivity. Qed.
  (** A minus sign *)
  Lemma minus_parse k : (0 < k < 2 ^ 64)%N -> parse [] ["--n-value=-" ++ show_int k] = Parsed [("n-value", VUnsigned (2 ^ 64 - k))].
  Proof.
    intros Hk. refine (parse_adjacent [] _ ("-" ++ show_int k) (VUnsigned (2 ^ 64 - k)) [] (row_in 0 _ eq_refl) _ _ _); [done| |by apply not_given].
    apply means_minus; [apply decimal_show|done].
  Qed.
End Lines.

(** * The runner of the tests *)
Lemma runner_words bind threads : Forall foreign (runner_args bind threads) /\
  exists text, ("--hpx:threads=" ++ text) ∈ runner_args bind threads /\ decimal text threads.
Proof.
  assert (E : put ["--hpx:threads="; show_int threads] = "--" ++ "hpx:threads" ++ "=" ++ show_int threads) by (unfold put; cbn [fold_right]; by rewrite app_nil).
  split.
  - unfold runner_args. apply Forall_cons. split.
    + rewrite E. apply foreign_option; [by apply no_equals_has|right; by eexists|by left|done].
    + destruct bind; [|by apply Forall_nil]. apply Forall_cons. split; [|by apply Forall_nil]. split; [done|left]. by intros [q Hq].
  - exists (show_int threads). split; [|apply decimal_show]. unfold runner_args. rewrite E. left.
Qed.
Lemma runner_bind bind threads w : w ∈ runner_args bind threads -> ~ begins "--hpx:bind" w.
Proof.
  unfold runner_args. intros [->|Hw]%elem_of_cons [q Hq]; [done|]. destruct bind; [|by apply elem_of_nil in Hw].
  apply elem_of_list_singleton in Hw as ->. done.
Qed.
