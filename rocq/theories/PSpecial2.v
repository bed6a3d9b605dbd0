(** Orders of summation that overflow, and a fused operation that returns -0. *)
From Coq Require Import ZArith Reals Psatz.
From Flocq Require Import Core IEEE754.Binary IEEE754.Bits.
From Verif Require Import Conc ConcFacts Base Num Spec SpecTiled Tools MCeil PCeil MDouble PDouble SpecContract MContract SpecRound PRound PContract PContract2 PContract3 PRecursive Properties5 MApp SpecApp SpecSpecial PSpecial.
Local Open Scope nat_scope.

Definition largest : binary64 := B754_finite 53 1024 false 9007199254740991 971 eq_refl.
Definition minus_largest : binary64 := B754_finite 53 1024 true 9007199254740991 971 eq_refl.
Definition wide_A : list binary64 := [nzero; minus_largest; largest; largest] ++ replicate 12 nzero.
Definition wide_B : list binary64 := replicate 16 none1.
Lemma wide_chunks : B2FF 53 1024 (prod_t_chunks 2 4 wide_A wide_B 0 0) = F754_infinity false.
Proof. vm_compute. reflexivity. Qed.
Lemma wide_straight : B2FF 53 1024 (prod_t_entry 4 wide_A wide_B 0 0) = B2FF 53 1024 largest.
Proof. vm_compute. reflexivity. Qed.
Lemma overflow_differs o G : o_n o = 4 -> o_block_input o = 2 -> suitable o G Algorithms -> suitable o G Looped ->
  exists A B : list binary64, length A = 16 /\ length B = 16 /\ (forall x, x ∈ A \/ x ∈ B -> finite64 x = true) /\
    always (computation o G Algorithms A B) (fun C => C !! 0 = Some (B754_infinity 53 1024 false)) /\
    always (computation o G Looped A B) (fun C => exists c, C !! 0 = Some c /\ finite64 c = true).
Proof.
  intros HN Hbi Hs _. cbn [suitable] in Hs. rewrite HN, Hbi in Hs. destruct Hs as (H1&H2&H3&H4).
  exists wide_A, wide_B. do 2 (split; [reflexivity|]). split.
  { intros x [Hx|Hx].
    - unfold wide_A in Hx. rewrite elem_of_app, !elem_of_cons, elem_of_replicate, elem_of_nil in Hx.
      destruct Hx as [[->|[->|[->|[->|[]]]]]|[-> _]]; reflexivity.
    - apply elem_of_replicate in Hx as [-> _]. reflexivity. }
  cbn [computation]. rewrite HN, Hbi. split.
  - eapply must_mono; [|exact (C20_algorithms_order 4 wide_A wide_B 2 (o_block_result o) eq_refl eq_refl H1 H2 H3 H4)].
    intros C m [_ HC]. specialize (HC 0 0 ltac:(lia) ltac:(lia)). cbn [Nat.mul Nat.add] in HC. refine (eq_trans HC (f_equal Some _)).
    apply B2FF_inj. exact wide_chunks.
  - destruct (C22_looped_equals_naive 4 wide_A wide_B (o_block_result o) 2 eq_refl eq_refl H1 H2 H3 H4) as (C0&HC0&Hl&_).
    eapply must_mono; [|exact Hl]. intros C m ->. destruct HC0 as [_ HC]. specialize (HC 0 0 ltac:(lia) ltac:(lia)).
    exists (prod_t_entry 4 wide_A wide_B 0 0). split; [exact HC|].
    assert (E : prod_t_entry 4 wide_A wide_B 0 0 = largest) by (apply B2FF_inj; exact wide_straight). by rewrite E.
Qed.

Definition small_x : binary64 := B754_finite 53 1024 false 4503599627370496 (-1000) eq_refl.
Definition small_y : binary64 := B754_finite 53 1024 true 4503599627370496 (-1000) eq_refl.
Lemma fused_minus_zero : B2FF 53 1024 (fma64 small_x small_y nzero) = B2FF 53 1024 minus_zero.
Proof. vm_compute. reflexivity. Qed.
Lemma minus_zero_fused o G : o_n o = 1 -> o_transposed o = false -> suitable o G Single ->
  exists A B : list binary64, length A = 1 /\ length B = 1 /\ unit_entries A /\ unit_entries B /\
    always (computation o G Single (TNum <$> A) (TNum <$> B)) (fun D => exists C, Forall2 compiled D C /\ minus_zero ∈ C).
Proof.
  intros Ho Htr Hs. exists [small_x], [small_y]. do 2 (split; [reflexivity|]).
  assert (Hu : forall s, (Rabs (F2R (Float radix2 (cond_Zopp s 4503599627370496) (-1000))) <= 1)%R).
  { intros s. rewrite <- F2R_Zabs. rewrite abs_cond_Zopp. unfold F2R. cbn [Fnum Fexp].
    apply Rle_trans with (bpow radix2 53 * bpow radix2 (-1000))%R.
    - apply Rmult_le_compat_r; [apply bpow_ge_0|]. change (bpow radix2 53) with (IZR 9007199254740992). apply IZR_le. lia.
    - rewrite <- bpow_plus. change 1%R with (bpow radix2 0). apply bpow_le. lia. }
  split; [intros z ->%elem_of_list_singleton; split; [reflexivity|exact (Hu false)]|].
  split; [intros z ->%elem_of_list_singleton; split; [reflexivity|exact (Hu true)]|].
  cbn [suitable computation] in *. rewrite Ho, Htr in *. destruct Hs as (Hr&ms&d&H1&H2&H3&H4).
  destruct (Nat.eqb_spec (o_repetitions o) 0) as [?|_]; [lia|].
  eapply must_mono; [|exact (single_always 1 (TNum <$> [small_x]) (TNum <$> [small_y]) false (o_block_input o) (o_block_result o) ms d (o_repetitions o) eq_refl eq_refl H1 H2 H3 H4 Hr)].
  intros D m HD. cbv beta in HD.
  assert (D = [TAdd (TNum nzero) (TMul (TNum small_x) (TNum small_y))]) as ->.
  { eapply is_matrix_unique; [exact HD|]. split; [reflexivity|]. intros i j Hi Hj.
    destruct i as [|?]; [|lia]. destruct j as [|?]; [|lia]. reflexivity. }
  exists [fma64 small_x small_y nzero]. split.
  - constructor; [|constructor]. apply compiled_fma_r; constructor.
  - apply elem_of_list_singleton. symmetry. apply B2FF_inj. exact fused_minus_zero.
Qed.
