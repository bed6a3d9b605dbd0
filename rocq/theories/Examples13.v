(** Concrete cases for Properties13. *)
From Verif Require Import Conc SpecExp MExp Properties13.
Local Open Scope Z_scope.

Definition A4 : list Z := [1;2;3;4; 5;6;7;8; 9;10;11;12; 13;14;15;16].
Definition B4 : list Z := [2;0;1;0; 1;3;0;5; 0;0;4;1; 7;1;0;2].
Definition I4 : list Z := [1;0;0;0; 0;1;0;0; 0;0;1;0; 0;0;0;1].
Definition junk4 : list Z := replicate 16 99.
Local Open Scope nat_scope.
Lemma sq4 (L : list Z) : length L = 16 -> 4 * 4 <= length L.
Proof. lia. Qed.
Lemma I4_identity : is_identity 4 I4.
Proof.
  split; [done|]. intros i j Hi Hj. destruct i as [|[|[|[|]]]]; try lia; destruct j as [|[|[|[|]]]]; try lia; reflexivity.
Qed.
Lemma two_four : (2 | 4). Proof. by exists 2. Qed.
Lemma four_four : (4 | 4). Proof. by exists 1. Qed.
Lemma not_2_3 : ~ (2 | 3). Proof. intros [q Hq]. lia. Qed.
Lemma not_4_6 : ~ (4 | 6). Proof. intros [q Hq]. lia. Qed.

(** C51 *)
Example ex_C51_even := C51_blocked2_even 4 A4 B4 junk4 (sq4 A4 eq_refl) (sq4 B4 eq_refl) eq_refl two_four.
Example ex_C51_odd := C51_blocked2_odd 3 (replicate 11 7%Z) (replicate 9 1%Z) (replicate 9 0%Z) not_2_3 ltac:(simpl; lia).
Example ex_C51_entries := C51_blocked4_entries 4 A4 B4 junk4 (sq4 A4 eq_refl) (sq4 B4 eq_refl) eq_refl four_four.
Example ex_C51_entry_values : every4_entry 4 A4 B4 1 0 = 10%Z /\ prod_t_entry 4 A4 B4 1 0 = 17%Z.
Proof. done. Qed.
Example ex_C51_other := C51_blocked4_other_sizes 6 (replicate 38 7%Z) (replicate 36 1%Z) (replicate 36 0%Z) not_4_6 ltac:(simpl; lia).
Example ex_C51_identity := C51_blocked4_identity 4 A4 I4 junk4 (sq4 A4 eq_refl) I4_identity eq_refl four_four.
Example ex_C51_refuted :=
  C51_blocked4_product_refuted 4 A4 I4 junk4 2 3 eq_refl I4_identity eq_refl four_four ltac:(lia) ltac:(lia) ltac:(done) ltac:(done).

(** C59, C60 *)
Example ex_C59_naive := C59_naive 4 A4 B4 junk4 (sq4 A4 eq_refl) (sq4 B4 eq_refl) eq_refl.
Example ex_C59_transposed := C59_transposed 4 A4 B4 junk4 (sq4 A4 eq_refl) (sq4 B4 eq_refl) eq_refl.
Example ex_C59_value : acc_entry 4 A4 B4 junk4 0 0 = 131%Z /\ acc_t_entry 4 A4 B4 junk4 0 0 = 104%Z.
Proof. done. Qed.
Lemma zero4 : is_zero 4 (replicate 16 0%Z).
Proof.
  split; [done|]. intros i j Hi Hj. apply lookup_replicate_2. lia.
Qed.
Example ex_C59_zeroed := C59_naive_zeroed 4 A4 B4 (replicate 16 0%Z) (sq4 A4 eq_refl) (sq4 B4 eq_refl) zero4.
Lemma Z_cancel (x y : Z) : (x + y = y -> x = 0)%Z.
Proof. lia. Qed.
Example ex_C59_refuted := C59_nonzero_refuted 4 A4 B4 junk4 1 2 Z_cancel (sq4 A4 eq_refl) (sq4 B4 eq_refl) eq_refl
  ltac:(lia) ltac:(lia) ltac:(done).
Example ex_C60 := C60_counter 4 A4 B4 junk4 (sq4 A4 eq_refl) (sq4 B4 eq_refl) eq_refl.

(** C61: blocks of two rows, chunks of four products. *)
Example ex_C61 := C61_gpu 2 4 55%Z 4 A4 B4 junk4 ltac:(lia) ltac:(lia) two_four four_four four_four (sq4 A4 eq_refl) (sq4 B4 eq_refl) eq_refl.
Example ex_C61_exact := C61_gpu_exact 2 4 55%Z 4 A4 B4 junk4 ltac:(lia) ltac:(lia) two_four four_four four_four (sq4 A4 eq_refl) (sq4 B4 eq_refl) eq_refl.
Example ex_C61_other := C61_gpu_other_sizes 4 4 55%Z 6 (replicate 41 7%Z) (replicate 36 1%Z) (replicate 36 0%Z) ltac:(lia) ltac:(lia) not_4_6 ltac:(simpl; lia).
(** The shipped sizes, n = 256, with an arbitrary matrix. *)
Lemma shipped_256 : (128 | 256). Proof. by exists 2. Qed.
Example ex_C61_shipped (A B C : list Z) (HA : length A = 256 * 256) (HB : length B = 256 * 256) (HC : length C = 256 * 256) :=
  C61_gpu_shipped 55%Z 256 A B C shipped_256 (Nat.eq_le_incl _ _ (eq_sym HA)) (Nat.eq_le_incl _ _ (eq_sym HB)) HC.
(** C62 *)
Example ex_C62 := C62_exchanged 4 4 4 55%Z 4 A4 B4 junk4 ltac:(lia) ltac:(lia) ltac:(lia) four_four four_four four_four four_four four_four four_four
  (sq4 A4 eq_refl) (sq4 B4 eq_refl) eq_refl.
Example ex_C62_other := C62_exchanged_other_sizes 4 4 4 55%Z 6 (replicate 41 7%Z) (replicate 36 1%Z) (replicate 36 0%Z) ltac:(lia) ltac:(lia) ltac:(lia) not_4_6 ltac:(simpl; lia).
Example ex_C62_shipped (A B C : list Z) (HA : length A = 256 * 256) (HB : length B = 256 * 256) (HC : length C = 256 * 256) :=
  C62_exchanged_shipped 55%Z 256 A B C shipped_256 (Nat.eq_le_incl _ _ (eq_sym HA)) (Nat.eq_le_incl _ _ (eq_sym HB)) HC.
