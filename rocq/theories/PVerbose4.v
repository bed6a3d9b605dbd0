(** The matrices that a check prints. *)
From Coq Require Import ZArith Reals Ascii String Psatz.
From Flocq Require Import Core IEEE754.Binary IEEE754.Bits.
From Verif Require Import Base Conc ConcFacts LoopFacts Tools Tools3 Num Spec MDouble PDouble MPrint PPrint PTranscript PTranscript2 MTranscript MVerbose PVerbose PVerbose3 MApp SpecApp PApp PApp2 SpecTranscript SpecVerbose.
Local Open Scope nat_scope.

Section Diff.
  Context {T : Type} `{NumOps T} (absdiff : T -> T -> T) (o : options).
  Notation N := (o_n o).
  Lemma diff_values (C Cref : list T) : length C = N * N -> length Cref = N * N ->
    exists D, diff_matrix absdiff o C Cref = Ret D /\ length D = N * N /\
      forall k c r, C !! k = Some c -> Cref !! k = Some r -> D !! k = Some (absdiff r c).
  Proof.
    intros HC HR. unfold diff_matrix. rewrite forS_step by lia. rewrite rng_1, Nat.sub_0_r.
    enough (He : forall l D, (forall k, k ∈ l -> k < N * N) -> length D = N * N -> exists D',
      foldP l (fun k diff => let! r := vat Cref k in let! c := vat C k in vset_at diff k (absdiff r c)) D = Ret D' /\ length D' = N * N /\
      forall k c r, C !! k = Some c -> Cref !! k = Some r -> (k ∈ l -> D' !! k = Some (absdiff r c)) /\ (k ∉ l -> D' !! k = D !! k)).
    { destruct (He (seq 0 (N * N)) (replicate (N * N) nzero)) as (D&H1&H2&H3); [intros k Hk%elem_of_seq; lia|by rewrite replicate_length|].
      exists D. split; [done|]. split; [done|]. intros k c r Hc Hr. apply (H3 k c r Hc Hr). apply lookup_lt_Some in Hc. apply elem_of_seq. lia. }
    induction l as [|k l IH]; intros D Hk HD.
    { eexists. split; [done|]. split; [done|]. intros k c r _ _. split; [intros Hin; by apply elem_of_nil in Hin|done]. }
    cbn [foldP]. assert (Hkl : k < N * N) by (apply Hk; set_solver).
    destruct (lookup_lt_is_Some_2 Cref k) as [r Hr]; [lia|]. destruct (lookup_lt_is_Some_2 C k) as [c Hc]; [lia|].
    rewrite (vat_lookup _ _ _ Hr). cbn [pbind]. rewrite (vat_lookup _ _ _ Hc). cbn [pbind].
    rewrite vset_at_ok by lia. cbn [pbind]. rewrite applyL_one.
    destruct (IH (alter (fun _ => absdiff r c) k D)) as (D'&H1&H2&H3); [set_solver|by rewrite alter_length|].
    exists D'. split; [done|]. split; [done|]. intros k' c' r' Hc' Hr'. destruct (H3 k' c' r' Hc' Hr') as [H4 H5]. split.
    - intros Hin. destruct (decide (k' ∈ l)) as [Hl|Hl]; [by apply H4|]. apply elem_of_cons in Hin as [->|?]; [|done].
      rewrite H5 by done. rewrite list_lookup_alter. rewrite Hc in Hc'. rewrite Hr in Hr'. injection Hc' as <-. injection Hr' as <-.
      destruct (lookup_lt_is_Some_2 D k) as [d ->]; [lia|]. done.
    - intros Hn. apply not_elem_of_cons in Hn as [Hne Hl]. rewrite H5 by done. by rewrite list_lookup_alter_ne.
  Qed.
End Diff.

Lemma small_sym x y : small64 (absdiff64 x y) = true <-> small64 (absdiff64 y x) = true.
Proof. rewrite !accept_iff, Rabs_minus_sym. tauto. Qed.
Lemma show_same x : finite64 x = true -> show64 6 (absdiff64 x x) = "0"%string.
Proof.
  intros Hx. pose proof (Bminus_correct 53 1024 eq_refl eq_refl binop_nan_pl64 rne x x Hx Hx) as Hm.
  change (Bminus 53 1024 _ _ binop_nan_pl64 rne) with (b64_minus rne) in Hm. rewrite Rminus_diag_eq, round_0, Rabs_R0 in Hm by (done || apply _).
  rewrite Rlt_bool_true in Hm by apply bpow_gt_0. destruct Hm as (Hv&Hf&_). unfold absdiff64.
  destruct (b64_minus rne x x) as [s|s|s pl Hpl|s m e He]; try discriminate Hf; [reflexivity|].
  exfalso. apply (eq_0_F2R radix2) in Hv. by destruct s.
Qed.
Section Printed.
  Context (o : options).
  Notation N := (o_n o).
  Lemma diff_printed (C Cref : list binary64) : length C = N * N -> length Cref = N * N ->
    exists D, diff_matrix absdiff64 o C Cref = Ret D /\
      put (matrix_chunks o (by_rows o) D) = matrix_text N (fun i j => absdiff64 (ent N Cref i j) (ent N C i j)) /\
      (equal_results absdiff64 small64 C Cref = true <-> forall d, d ∈ D -> small64 d = true).
  Proof.
    intros HC HR. destruct (diff_values absdiff64 o C Cref HC HR) as (D&HD&Hl&Hv). exists D. split; [done|]. split.
    - rewrite matrix_put. apply matrix_text_ext. intros i j Hi Hj. unfold by_rows. apply nth_lookup_Some.
      apply Hv; by apply ent_lookup_sq.
    - unfold equal_results. rewrite andb_true_iff, Nat.eqb_eq, forallb_forall. split.
      + intros [_ H] d (k&Hk)%elem_of_list_lookup. apply lookup_lt_Some in Hk as Hlt.
        destruct (lookup_lt_is_Some_2 C k) as [c Hc]; [lia|]. destruct (lookup_lt_is_Some_2 Cref k) as [r Hr]; [lia|].
        rewrite (Hv k c r Hc Hr) in Hk. injection Hk as <-. apply small_sym, (H (c, r)), elem_of_list_In, elem_of_list_lookup. exists k.
        rewrite lookup_zip_with, Hc. cbn. by rewrite Hr.
      + intros H. split; [lia|]. intros [c r] Hin. apply elem_of_list_In, elem_of_list_lookup in Hin as (k&Hk).
        rewrite lookup_zip_with in Hk. destruct (C !! k) as [c'|] eqn:Hc; [|done]. cbn in Hk. destruct (Cref !! k) as [r'|] eqn:Hr; [|done].
        injection Hk as -> ->. cbn [fst snd]. apply small_sym, H, elem_of_list_lookup. exists k. by apply Hv.
  Qed.
  Lemma checked_printed (gen : nat -> binary64) : (forall k, k < N * N -> finite64 (gen k) = true /\ neg64 (gen k) = false) ->
    let A := gen <$> seq 0 (N * N) in
    exists B, build_B o (o_transposed o) = Ret B /\
    always (if negb (o_transposed o) then naive_matrix_multiply N A B else naive_matrix_multiply_transposed N A B) (fun R =>
      put (matrix_chunks o (by_rows o) R) = matrix_text N (fun i j => gen (i * N + j)) /\
      exists D, diff_matrix absdiff64 o A R = Ret D /\
        put (matrix_chunks o (by_rows o) D) = put (map (fun _ => String.concat ", " (map (fun _ => "0"%string) (seq 0 N)) ++ newline)%string (seq 0 N))).
  Proof.
    intros Hg A. destruct (build_B_ok (T := binary64) o (o_transposed o)) as (B&HB&HI). exists B. split; [done|].
    assert (HA : length A = N * N) by (unfold A; by rewrite fmap_length, seq_length).
    assert (Hel : forall x, x ∈ A -> nonneg64 x).
    { intros x (k&->&Hk%elem_of_seq)%elem_of_list_fmap. apply Hg. lia. }
    destruct (reference_ok (T := binary64) o A B HA ltac:(apply HI)) as (R&[HlR HR]&Hal). eapply must_mono; [|exact Hal]. intros R' m ->. cbn beta.
    assert (R = A) as ->.
    { assert (HRA : is_matrix N (pentry (o_transposed o) N A B) A); [|by eapply is_matrix_unique].
      split; [done|]. intros i j Hi Hj. rewrite (unit_pentry N A B HA HI (unit64 nzero ltac:(done)) (fun x Hx => unit64 x (Hel x Hx))) by done.
      by apply ent_lookup_sq. }
    split; [apply generated|]. destruct (diff_printed A A HA HA) as (D&HD&Hp&_). exists D. split; [done|]. rewrite Hp.
    unfold matrix_text. f_equal. apply map_ext_in. intros i Hi%in_seq. do 2 f_equal. apply map_ext_in. intros j Hj%in_seq.
    apply show_same, Hel, elem_of_list_lookup. exists (i * N + j). apply ent_lookup_sq; [done|lia..].
  Qed.
End Printed.
