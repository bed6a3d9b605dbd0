(** Non-trivial instances of the theorems in Properties22.v. *)
From Coq Require Import ZArith Reals String.
From Flocq Require Import IEEE754.Binary IEEE754.Bits.
From Verif Require Import Base Num MCeil MDouble MTests MTile SpecTile MTests2 SpecLayout PLayout3 MLearn SpecLearn Properties22.
Local Open Scope nat_scope.

Example ex_C77_close : check_close (double_literal (Dec 1 15)) (double_of 770) (double_of 770) = true /\
  check_close (double_literal (Dec 1 15)) (double_of 771) (double_of 770) = false.
Proof. split; vm_compute; reflexivity. Qed.
Example ex_C77_close_theorem := C77_close_means_equal (double_of 770) 770 ltac:(lia).

(** Nine tiles of 2 x 2 *)
Definition small_layout : layout_test := Layout 6 6 2 2 2 3
  [0; 1; 6; 7]%Z [4; 5; 10; 11]%Z [24; 25; 30; 31]%Z [28; 29; 34; 35]%Z.
Lemma small_fits : fits small_layout.
Proof.
  assert (Hz : (Z.of_nat (6 * 6) <= 2 ^ 53)%Z) by (vm_compute; discriminate).
  unfold fits. cbn [l_N l_tile l_stride l_width l_row l_last l_first l_first_end l_first_last l_bottom small_layout].
  split_and!; try reflexivity; try exact Hz; try (cbn; lia);
    intros i j Hi Hj; destruct i as [|[|i]]; try lia; destruct j as [|[|j]]; try lia; reflexivity.
Qed.
Example ex_C77_pass := C77_suites_pass small_layout small_fits.
Example ex_C77_pass_q : 2 <= l_N small_layout / l_tile small_layout.
Proof. change (2 <= 3). lia. Qed.
Example ex_C77_refuted := C77_passing_means_tiled_refuted small_layout small_fits ltac:(change (3 <= 3); lia).
Example ex_C77_refuted_shipped := C77_passing_means_tiled_refuted shipped_layout shipped_fits
  ltac:(cbn [l_N l_tile shipped_layout]; change (256 / 4) with 64; lia).
(** The verdict on a function that does not tile at all: it fails *)
Example ex_C77_untiled : test_view (fun M _ => Ok M) small_layout = Ok false.
Proof. vm_compute. reflexivity. Qed.
Example ex_C77_untiled_verdict := C77_view_verdict small_layout (fun M _ => Ok M) (counted_matrix 6) small_fits eq_refl
  ltac:(unfold counted_matrix; rewrite fmap_length, seq_length; reflexivity).
(** The verdict on a traversal column by column: it fails *)
Example ex_C77_columns : test_iterate (make_tiled nzero 2)
  (visiting [[0;0];[1;0];[2;0];[0;1];[1;1];[2;1];[0;2];[1;2];[2;2]]) small_layout = Ok false.
Proof. vm_compute. reflexivity. Qed.
Example ex_C77_columns_verdict := C77_iterate_verdict small_layout (fun M _ => Ok M) (counted_matrix 6)
  [[0;0];[1;0];[2;0];[0;1];[1;1];[2;1];[0;2];[1;2];[2;2]] small_fits ex_C77_pass_q eq_refl
  ltac:(unfold counted_matrix; rewrite fmap_length, seq_length; reflexivity)
  ltac:(repeat constructor; cbn; lia).

Example ex_C78_calls := C78_calls 3 2 5.
Example ex_C78_tuples : iterate_simple (Looper 2 1 3) (fun t s => Ok (s ++ [t])) [] = Ok [[1;1];[1;2];[2;1];[2;2]].
Proof. reflexivity. Qed.
Example ex_C78_output : learning_main 0 2 = Ok ("(0, 0), (0, 1), (1, 0), (1, 1)" ++ newline)%string.
Proof. reflexivity. Qed.
Example ex_C78_refuted := C78_separated_refuted 3 5 ltac:(lia) ltac:(lia).
Example ex_C78_separator : learning_main 3 4 = Ok (", (3, 3)" ++ newline)%string.
Proof. reflexivity. Qed.
