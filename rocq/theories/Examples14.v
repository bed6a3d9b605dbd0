(** Concrete cases for Properties14. *)
From Verif Require Import Conc SpecExp2 MExp2 Properties14.

Definition A16 : list Z := Z.of_nat <$> seq 3 256.
Definition B16 : list Z := (fun k => 7 - Z.of_nat k)%Z <$> seq 0 256.
Definition junk16 : list Z := replicate 256 99%Z.
(** A fused operation over Z. *)
Definition zfma (x y z : Z) : Z := (x * y + z)%Z.
Lemma zfma_exact : fma_exact zfma. Proof. intros x y z. unfold zfma. simpl. lia. Qed.
Lemma sq16 (L : list Z) : length L = 256 -> 16 * 16 <= length L. Proof. lia. Qed.
Lemma d_16_16 : (16 | 16). Proof. by exists 1. Qed.
Lemma d_8_16 : (8 | 16). Proof. by exists 2. Qed.
Lemma d_4_16 : (4 | 16). Proof. by exists 4. Qed.
Lemma d_4_8 : (4 | 8). Proof. by exists 2. Qed.
Lemma d_4_4 : (4 | 4). Proof. by exists 1. Qed.
Lemma d_8_8 : (8 | 8). Proof. by exists 1. Qed.
Lemma n_8_12 : ~ (8 | 12). Proof. intros [q Hq]. lia. Qed.
Lemma n_4_6 : ~ (4 | 6). Proof. intros [q Hq]. lia. Qed.

(** C63: blocks 8 x 16, chunks of 4, for 16 x 16 matrices 32 bytes aligned. *)
Example ex_C63 := C63_intrin 8 16 4 zfma 55%Z 0 4 8 A16 B16 junk16 16 ltac:(lia) ltac:(lia) ltac:(lia) d_8_16 d_16_16 d_4_16 d_4_8 d_16_16 d_4_4
  (sq16 A16 eq_refl) (sq16 B16 eq_refl) eq_refl eq_refl eq_refl eq_refl.
Example ex_C63_exact := C63_intrin_exact 8 16 4 zfma 55%Z 0 4 8 A16 B16 junk16 16 zfma_exact ltac:(lia) ltac:(lia) ltac:(lia) d_8_16 d_16_16 d_4_16 d_4_8 d_16_16 d_4_4
  (sq16 A16 eq_refl) (sq16 B16 eq_refl) eq_refl eq_refl eq_refl eq_refl.
Example ex_C63_value : fma_entry zfma 16 A16 B16 2 5 = (-85680)%Z /\ prod_entry 16 A16 B16 2 5 = (-85680)%Z.
Proof. vm_compute. done. Qed.
Example ex_C63_shipped (A B C : list Z) (HA : length A = 256 * 256) (HB : length B = 256 * 256) (HC : length C = 256 * 256) :=
  C63_intrin_shipped zfma 55%Z 8 8 8 A B C 256 ltac:(by exists 2) (Nat.eq_le_incl _ _ (eq_sym HA)) (Nat.eq_le_incl _ _ (eq_sym HB)) HC eq_refl eq_refl eq_refl.
(** std::malloc usually gives 16-byte alignment only: two doubles off. *)
Example ex_C63_misaligned := C63_intrin_misaligned 8 16 4 zfma 55%Z 2 4 8 A16 B16 junk16 16 ltac:(lia) ltac:(lia) ltac:(lia) ltac:(lia) ltac:(by left).
Example ex_C63_other := C63_intrin_other_sizes 8 16 4 zfma 55%Z 0 4 8 (replicate 150 1%Z) (replicate 144 1%Z) (replicate 144 0%Z) 12
  ltac:(lia) ltac:(lia) ltac:(lia) d_4_4 n_8_12 ltac:(rewrite replicate_length; lia).

(** C64 *)
Example ex_C64_fma := C64_register_fma 8 16 4 zfma 55%Z 4 8 A16 B16 junk16 16 ltac:(lia) ltac:(lia) ltac:(lia) d_8_16 d_16_16 d_4_16 d_8_8 d_8_16
  (sq16 A16 eq_refl) (sq16 B16 eq_refl) eq_refl eq_refl eq_refl.
Example ex_C64_no_fma := C64_register_no_fma 8 16 4 no_fma 55%Z 4 8 A16 B16 junk16 16 ltac:(lia) ltac:(lia) ltac:(lia) d_8_16 d_16_16 d_4_16 d_8_8 d_8_16
  (sq16 A16 eq_refl) (sq16 B16 eq_refl) eq_refl eq_refl eq_refl.
Example ex_C64_values :
  misplaced_entry no_fma 16 A16 B16 0 0 = prod_entry 16 A16 B16 0 0 /\
  misplaced_entry no_fma 16 A16 B16 1 0 = (prod_entry 16 A16 B16 0 4 + prod_entry 16 A16 B16 2 0)%Z /\
  misplaced_entry no_fma 16 A16 B16 5 3 = 0%Z /\ prod_entry 16 A16 B16 5 3 <> 0%Z.
Proof. by vm_compute. Qed.
Example ex_C64_fma_shipped (A B C : list Z) (HA : length A = 256 * 256) (HB : length B = 256 * 256) (HC : length C = 256 * 256) :=
  C64_register_fma_shipped zfma 55%Z 0 4 A B C 256 ltac:(by exists 1) (Nat.eq_le_incl _ _ (eq_sym HA)) (Nat.eq_le_incl _ _ (eq_sym HB)) HC eq_refl eq_refl.
Example ex_C64_no_fma_shipped (A B C : list Z) (HA : length A = 256 * 256) (HB : length B = 256 * 256) (HC : length C = 256 * 256) :=
  C64_register_no_fma_shipped 55%Z 0 4 A B C 256 ltac:(by exists 1) (Nat.eq_le_incl _ _ (eq_sym HA)) (Nat.eq_le_incl _ _ (eq_sym HB)) HC eq_refl eq_refl.
(** All ones: every entry of the product is n. *)
Lemma ones_entry n i j : i < n -> j < n -> prod_entry n (replicate (n * n) 1%Z) (replicate (n * n) 1%Z) i j = Z.of_nat n.
Proof.
  intros Hi Hj.
  assert (forall a b, a < n -> b < n -> ent n (replicate (n * n) 1%Z) a b = 1%Z) as E.
  { intros a b Ha Hb. unfold ent. rewrite lookup_replicate_2; [done|]. nia. }
  unfold prod_entry, dot.
  assert (forall L acc, (forall k, k ∈ L -> k < n) ->
    foldl (fun acc k => nadd acc (nmul (ent n (replicate (n * n) 1%Z) i k) (ent n (replicate (n * n) 1%Z) k j))) acc L = (acc + Z.of_nat (length L))%Z) as F.
  { induction L as [|k L IH]; intros acc HL; cbn [foldl length]; [lia|]. rewrite IH by (intros x Hx; apply HL; by right).
    rewrite (E i k) by (done || (apply HL; left)). rewrite (E k j) by (done || (apply HL; left)). simpl. lia. }
  rewrite F; [rewrite seq_length; done|]. intros k Hk%elem_of_seq. lia.
Qed.
Example ex_C64_refuted n (Hn : (256 | n)) (Hpos : 6 < n) :
  let ones := replicate (n * n) 1%Z in
  always (multRegister_no_fma 55%Z 0 4 ones ones ones n) (fun R => R !! (6 * n + 2) = Some 0%Z /\ ~ is_product n ones ones R).
Proof.
  intros ones. assert (length ones = n * n) as Hl by apply replicate_length.
  assert (n * n <= length ones) as Hle by lia.
  assert (prod_entry n ones ones 6 2 <> nzero) as Hne by (unfold ones; rewrite ones_entry by lia; simpl; lia).
  exact (C64_register_no_fma_product_refuted 55%Z 0 4 ones ones ones n 6 2 Hn Hle Hle Hl eq_refl eq_refl Hpos (Nat.lt_trans 2 6 n ltac:(lia) Hpos) (proj1 (Nat.leb_le 5 (6 mod 8)) eq_refl) Hne).
Qed.
Example ex_C64_misaligned := C64_register_misaligned 8 16 4 zfma (fun iii jjj => iii * 2 + jjj) 55%Z 2 8 A16 B16 junk16 16
  ltac:(lia) ltac:(lia) ltac:(lia) ltac:(lia) ltac:(by left).
Example ex_C64_other := C64_register_other_sizes 8 8 4 zfma (fun iii jjj => iii * 2 + jjj) 55%Z 0 8 (replicate 150 1%Z) (replicate 144 1%Z) (replicate 144 0%Z) 12
  ltac:(lia) ltac:(lia) ltac:(lia) n_8_12 ltac:(rewrite replicate_length; lia).

(** C65 *)
Example ex_C65 := C65_asm 0 4 A16 B16 junk16 16 (sq16 A16 eq_refl) (sq16 B16 eq_refl) eq_refl d_4_16 eq_refl eq_refl.
Example ex_C65_exact := C65_asm_exact 0 4 A16 B16 junk16 16 Z.mul_comm (sq16 A16 eq_refl) (sq16 B16 eq_refl) eq_refl d_4_16 eq_refl eq_refl.
Example ex_C65_unsupported := C65_asm_unsupported 0 4 A16 B16 junk16 16 eq_refl.
Example ex_C65_misaligned := C65_asm_misaligned 0 2 A16 B16 junk16 16 ltac:(lia) ltac:(by right).
Example ex_C65_other := C65_asm_other_sizes 0 4 A16 B16 (replicate 36 0%Z) 6 ltac:(lia) n_4_6.
Example ex_C65_one := C65_asm_one 0 4 [5%Z] [6%Z] [0%Z] 1 eq_refl ltac:(left; simpl; lia).

(** C66 *)
Example ex_C66 := C66_gpuasm 8 4 zfma 55%Z 0 4 A16 B16 junk16 16 ltac:(lia) ltac:(lia) d_8_16 d_4_16 d_4_8 d_4_4
  (sq16 A16 eq_refl) (sq16 B16 eq_refl) eq_refl eq_refl eq_refl.
Example ex_C66_exact := C66_gpuasm_exact 8 4 zfma 55%Z 0 4 A16 B16 junk16 16 zfma_exact ltac:(lia) ltac:(lia) d_8_16 d_4_16 d_4_8 d_4_4
  (sq16 A16 eq_refl) (sq16 B16 eq_refl) eq_refl eq_refl eq_refl.
Example ex_C66_value : fma_lanes_entry zfma 8 16 A16 B16 2 5 = prod_t_entry 16 A16 B16 2 5.
Proof. by vm_compute. Qed.
Example ex_C66_shipped (A B C : list Z) (HA : length A = 256 * 256) (HB : length B = 256 * 256) (HC : length C = 256 * 256) :=
  C66_gpuasm_shipped zfma 55%Z 0 4 A B C 256 ltac:(by exists 1) (Nat.eq_le_incl _ _ (eq_sym HA)) (Nat.eq_le_incl _ _ (eq_sym HB)) HC eq_refl eq_refl.
Example ex_C66_no_fma := C66_gpuasm_no_fma 8 4 55%Z 0 4 A16 B16 junk16 16 ltac:(lia) ltac:(lia) d_8_16 d_4_16 d_4_8 d_4_4
  (sq16 A16 eq_refl) (sq16 B16 eq_refl) eq_refl eq_refl eq_refl.
Example ex_C66_misaligned := C66_gpuasm_misaligned 8 4 (Some zfma) 55%Z 1 4 A16 B16 junk16 16 ltac:(lia) ltac:(lia) ltac:(lia) ltac:(by left).
Example ex_C66_other := C66_gpuasm_other_sizes 8 4 (Some zfma) 55%Z 0 4 (replicate 150 1%Z) (replicate 144 1%Z) (replicate 144 0%Z) 12
  ltac:(lia) ltac:(lia) n_8_12 ltac:(rewrite replicate_length; lia).
