(** Non-trivial instances of the theorems in Properties17.v. *)
From Coq Require Import ZArith Reals Psatz.
From Flocq Require Import Core IEEE754.Binary IEEE754.Bits.
From Verif Require Import Base Conc ConcFacts Num Spec SpecTiled SpecSched SpecApp SpecRound SpecContract SpecExact MCeil MDouble MContract PDouble PRound PRound2 PExact64.
From Verif Require Import Examples10 Examples11 Properties17 MApp.

(** Integers between -3 and 3. *)
Definition int_at (q : nat) : Z := (Z.of_nat (q * q mod 7) - 3)%Z.
Definition I8 : list binary64 := (fun q => double_of (int_at q)) <$> seq 0 64.
Lemma int_at_small q : (Z.abs (int_at q) <= 3)%Z.
Proof. unfold int_at. pose proof (Nat.mod_upper_bound (q * q) 7 ltac:(lia)). lia. Qed.
Lemma I8_small x : x ∈ I8 -> finite64 x = true /\ exists z, val64 x = IZR z /\ (Z.abs z <= 3)%Z.
Proof.
  intros (q&->&_)%elem_of_list_fmap. pose proof (int_at_small q) as Hs. set (z := int_at q) in *. clearbody z.
  destruct (double_of_holds z ltac:(lia)) as (H1&H2&_). eauto.
Qed.
Lemma I8_integral : integral I8.
Proof. intros x Hx. destruct (I8_small x Hx) as (H1&z&H2&_). eauto. Qed.
Lemma I8_within tr : within_53_bits tr 8 I8 I8.
Proof.
  intros i j Hi Hj. unfold magnitude. apply Rle_trans with (rsum (fun _ => 9%R) (seq 0 8)).
  - apply rsum_le. intros k Hk%elem_of_seq. unfold factor_b.
    destruct (I8_small (ent 8 I8 i k)) as (_&z&->&Hz); [apply ent_in; [reflexivity|lia|lia]|].
    destruct (I8_small (if tr then ent 8 I8 j k else ent 8 I8 k j)) as (_&z'&->&Hz'); [destruct tr; apply ent_in; first [reflexivity|lia]|].
    rewrite <- mult_IZR, abs_IZR. apply IZR_le. rewrite Z.abs_mul. nia.
  - apply Rle_trans with (IZR 72); [cbn; lra|]. apply Rle_trans with (bpow radix2 7); [|apply bpow_le; lia]. change (bpow radix2 7) with (IZR 128). apply IZR_le. lia.
Qed.

Example ex_C69_exact_semi := C69_integer_exact 8 I8 I8 o_semi 1 Semi eq_refl eq_refl I8_integral I8_integral eq_refl eq_refl semi_suits (I8_within _).
Example ex_C69_exact_tiled := C69_integer_exact 8 I8 I8 o_tiled 1 KernelTiled eq_refl eq_refl I8_integral I8_integral eq_refl I tiled_suits (I8_within _).
Example ex_C69_value := C69_integer_value 8 I8 I8 o_single 1 Single eq_refl eq_refl I8_integral I8_integral eq_refl I single_suits (I8_within _).
Example ex_C69_bits := C69_integer_same_bits 8 I8 I8 o_single o_tiled 1 1 Single KernelTiled eq_refl eq_refl I8_integral I8_integral
  eq_refl eq_refl I I single_suits tiled_suits eq_refl (I8_within _).
(** An entry that is not zero: row 1 times column 2. *)
Example ex_C69_entry : exists z, exact_entry false 8 I8 I8 1 2 = IZR z /\ z <> 0%Z.
Proof.
  assert (H : forall q, val64 (double_of (int_at q)) = IZR (int_at q)).
  { intros q. pose proof (int_at_small q) as Hs. set (z := int_at q) in *. clearbody z. by destruct (double_of_holds z ltac:(lia)) as (_&H2&_). }
  assert (He : forall a b, a < 8 -> b < 8 -> val64 (ent 8 I8 a b) = IZR (int_at (a * 8 + b))).
  { intros a b Ha Hb. rewrite <- H. unfold ent, I8. rewrite list_lookup_fmap, lookup_seq_lt by lia. done. }
  exists (foldr (fun k s => int_at (1 * 8 + k) * int_at (k * 8 + 2) + s) 0 (seq 0 8))%Z. split; [|by vm_compute].
  unfold exact_entry, factor_b, rsum. cbn [seq foldr]. rewrite !He by lia. rewrite !plus_IZR, !mult_IZR. done.
Qed.
