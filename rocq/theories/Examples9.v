(** Concrete cases meeting the hypotheses of the theorems of Properties9.v. *)
From Verif Require Import Base MIter MTile SpecTile Properties9.

Definition ti3 : list tiling_info_dim := [Tiling 1 2; Tiling 2 4; Tiling 2 2].
Lemma ti3_positive : sizes_positive ti3.
Proof. repeat constructor. Qed.
Lemma ti3_divide : sizes_divide ti3.
Proof. constructor; [exists 2; reflexivity|]. constructor; [exists 2; reflexivity|]. constructor; [exists 1; reflexivity|]. constructor. Qed.
Example ex_C37 : exists R, make_tiled 99 3 (seq 0 16) ti3 = Ok R /\ is_tiled ti3 (seq 0 16) R /\ R ≡ₚ seq 0 16.
Proof. exact (C37_make_tiled 99 (seq 0 16) ti3 ti3_positive ti3_divide eq_refl). Qed.
Definition ti2 : list tiling_info_dim := [Tiling 2 4; Tiling 2 4].
Example ex_C37_value : make_tiled 99 2 (seq 0 16) ti2 = Ok [0;1;4;5; 2;3;6;7; 8;9;12;13; 10;11;14;15].
Proof. reflexivity. Qed.
Example ex_C37_distinct : [1; 0] = [1; 0] /\ [0; 1] = [0; 1].
Proof. apply (C37_places_distinct ti2); [repeat constructor..|by left]. Qed.

(** 3 x 5 in tiles of 2 x 2: six entries do not fit, two tiles remain. *)
Definition tir : list tiling_info_dim := [Tiling 2 3; Tiling 2 5].
Lemma tir_positive : sizes_positive tir.
Proof. repeat constructor. Qed.
Example ex_C38 : exists R, make_tiled 99 2 (seq 0 15) tir = Ok R /\ is_tiled tir (seq 0 15) R /\
  (forall k, 8 <= k < 15 -> R !! k = Some 99) /\ (~ sizes_divide tir -> 0 < 15 -> tiled_entries tir < 15).
Proof. exact (C38_make_tiled_remainder 99 (seq 0 15) tir tir_positive eq_refl). Qed.
Example ex_C38_not_divide : ~ sizes_divide tir.
Proof. intros H. inversion H as [|? ? [q Hq] _]; subst. cbn in Hq. lia. Qed.
Example ex_C38_value : make_tiled 99 2 (seq 0 15) tir = Ok [0;1;5;6; 2;3;7;8; 99;99;99;99;99;99;99].
Proof. reflexivity. Qed.
Lemma tir_strip : in_remainder tir [2; 1].
Proof. split; [repeat constructor|]. exists 0, (Tiling 2 3), 2. split_and!; [reflexivity|reflexivity|by apply Nat.leb_le]. Qed.
Example ex_C38_absent R : make_tiled 99 2 (seq 0 15) tir = Ok R -> 11 ∉ R.
Proof.
  intros HR. apply (C38_remainder_absent 99 (seq 0 15) tir R [2; 1] 11 tir_positive);
    [reflexivity|exact HR|apply NoDup_seq|exact tir_strip|reflexivity|lia].
Qed.
Example ex_C38_ignored : make_tiled 99 2 (seq 0 15) tir = make_tiled 99 2 (<[11 := 77]> (seq 0 15)) tir.
Proof.
  apply (C38_remainder_ignored 99 (seq 0 15) (<[11 := 77]> (seq 0 15)) tir tir_positive eq_refl); [reflexivity|].
  intros idx Hw Hn. destruct (decide (row_major (strides_of tir) idx = 11)) as [He|He].
  - exfalso. apply Hn. split; [done|].
    inversion Hw as [|i ? r ? Hi Hr]; subst. inversion Hr as [|j ? r' ? Hj Hr']; subst. inversion Hr'; subst.
    cbn in He, Hi, Hj. exists 0, (Tiling 2 3), i. split_and!; [reflexivity|reflexivity|]. change (2 <= i). lia.
  - by rewrite list_lookup_insert_ne.
Qed.
Example ex_C38_wrong : make_tiled 99 2 (seq 0 16) ti3 = Fail EException.
Proof. apply C38_wrong_dimension. cbn. lia. Qed.

Example ex_C39 R : make_tiled 99 2 (seq 0 16) ti2 = Ok R -> exists views : list tile_view,
  (forall S (f : tile_view -> S -> res S) s, iterate_tiles ti2 f s = foldR views f s) /\ length views = 4.
Proof.
  intros HR. destruct (C39_tile_view 99 (seq 0 16) R ti2) as (v & H1 & H2 & _);
    [reflexivity|repeat constructor|reflexivity|exact HR|]. exists v. split; [exact H1|exact H2].
Qed.
Example ex_C39_value :
  iterate_tiles ti2 (fun v acc => let? x := tv_at_index [0;1;4;5; 2;3;6;7; 8;9;12;13; 10;11;14;15] v [1; 0] in Ok (acc ++ [x])) [] = Ok [4; 6; 12; 14].
Proof. reflexivity. Qed.

Example ex_C40 : exists e, undo_tiling 99 (seq 0 16) ti2 = Fail e /\ is_ub e = true.
Proof. exact (C40_undo_tiling_never_returns 99 (seq 0 16) ti2). Qed.
Example ex_C40_throw : exists e, undo_tiling 99 (seq 0 16) ti3 = Fail e /\ e = EException.
Proof. exact (C40_undo_tiling_never_returns 99 (seq 0 16) ti3). Qed.
Example ex_C40_equal : undo_tiling_body 99 [0;1;4;5; 2;3;6;7; 8;9;12;13; 10;11;14;15] ti2 = Ok (seq 0 16) /\
  undo_tiling 99 [0;1;4;5; 2;3;6;7; 8;9;12;13; 10;11;14;15] ti2 = Fail ENoReturn.
Proof.
  apply C40_untiled_equal_strides; [reflexivity|repeat constructor| |exists 4; repeat constructor|reflexivity|reflexivity].
  constructor; [exists 2; reflexivity|]. constructor; [exists 2; reflexivity|]. constructor.
Qed.
Example ex_C40_different : undo_tiling_body 99 [0;1;4;5; 2;3;6;7] [Tiling 2 2; Tiling 2 4] <> Ok (seq 0 8).
Proof.
  apply (C40_untiled_different_strides 99 (seq 0 8) _ 2 2 2 4); try lia; [reflexivity|apply NoDup_seq| |reflexivity].
  intros H%elem_of_seq. lia.
Qed.
Example ex_C40_different_value : undo_tiling_body 99 [0;1;4;5; 2;3;6;7] [Tiling 2 2; Tiling 2 4] = Ok [0;1;2;3;6;7;99;99].
Proof. reflexivity. Qed.

Example ex_C55 : make_tiled 99 2 (seq 0 16) [Tiling 2 4; Tiling 0 4] = Fail EDivZero.
Proof. apply (C55_make_tiled_zero_tile 99 (seq 0 16) [Tiling 2 4] (Tiling 0 4) []); [reflexivity|]. constructor; [cbn; lia|constructor]. Qed.
Example ex_C56 : make_tiled 99 3 (seq 0 15) ti3 = Fail EOob.
Proof. apply (C56_make_tiled_short_array 99 (seq 0 15) ti3 ti3_positive ti3_divide). cbn. lia. Qed.

Example ex_C41 : flat_index [1; 2; 0] [2; 3; 5] = Ok (row_major [5; 3; 2] [1; 2; 0]).
Proof. exact (C41_flat_index_value [1; 2; 0] [2; 3; 5] eq_refl). Qed.
Example ex_C41_equal : flat_index [1; 2; 0] [3; 3; 3] = Ok 15.
Proof. apply (C41_flat_index_equal_strides [1; 2; 0] [3; 3; 3] 3 eq_refl). repeat constructor. Qed.
Example ex_C41_different_2_3 := C41_flat_index_different_strides 2 3 ltac:(lia) ltac:(lia) ltac:(lia).
Example ex_C41_different_3_2 := C41_flat_index_different_strides 3 2 ltac:(lia) ltac:(lia) ltac:(lia).
