(** C37-C41, C55, C56: memory_layout. *)
From Verif Require Import Base MIter MTile SpecTile PTile PTile2.

Section Properties9.
  Context {T : Type}.

  (** C37: any number of dimensions.  Every entry is at its place, and the
      result is a rearrangement of the input. *)
  Theorem C37_make_tiled (T0 : T) org ti :
    sizes_positive ti -> sizes_divide ti -> length org = extent_prod (strides_of ti) ->
    exists R, make_tiled T0 (length ti) org ti = Ok R /\ is_tiled ti org R /\ R ≡ₚ org.
  Proof.
    intros Hp Hd Hl. destruct (make_tiled_ok T0 org ti Hp Hl) as (R & HR & Ht & _).
    exact (ex_intro _ R (conj HR (conj Ht (make_tiled_perm T0 org ti R Hp Hd Hl HR)))).
  Qed.
  (** ... and no two entries share a place. *)
  Theorem C37_places_distinct ti t i t' i' :
    within t (counts_of ti) -> within i (sizes_of ti) -> within t' (counts_of ti) -> within i' (sizes_of ti) ->
    place_original ti t i = place_original ti t' i' \/ place_tiled ti t i = place_tiled ti t' i' -> t = t' /\ i = i'.
  Proof. exact (places_distinct ti t i t' i'). Qed.

  (** C38: no divisibility required.  Full tiles are at their places, the rest
      of the array holds T(). *)
  Theorem C38_make_tiled_remainder (T0 : T) org ti :
    sizes_positive ti -> length org = extent_prod (strides_of ti) ->
    exists R, make_tiled T0 (length ti) org ti = Ok R /\ is_tiled ti org R /\
      (forall k, tiled_entries ti <= k < length org -> R !! k = Some T0) /\
      (~ sizes_divide ti -> 0 < length org -> tiled_entries ti < length org).
  Proof.
    intros Hp Hl. destruct (make_tiled_ok T0 org ti Hp Hl) as (R & HR & Ht & Hz).
    exact (ex_intro _ R (conj HR (conj Ht (conj Hz (entries_lost ti org Hp Hl))))).
  Qed.
  (** The entries of the remainder strip do not influence the result ... *)
  Theorem C38_remainder_ignored (T0 : T) org org' ti :
    sizes_positive ti -> length org = extent_prod (strides_of ti) -> length org' = length org ->
    (forall idx, within idx (strides_of ti) -> ~ in_remainder ti idx ->
       org !! row_major (strides_of ti) idx = org' !! row_major (strides_of ti) idx) ->
    make_tiled T0 (length ti) org ti = make_tiled T0 (length ti) org' ti.
  Proof. exact (make_tiled_strip T0 org org' ti). Qed.
  (** ... and are not in it, if the entries of the array are distinct. *)
  Theorem C38_remainder_absent (T0 : T) org ti R idx x :
    sizes_positive ti -> length org = extent_prod (strides_of ti) -> make_tiled T0 (length ti) org ti = Ok R ->
    NoDup org -> in_remainder ti idx -> org !! row_major (strides_of ti) idx = Some x -> x <> T0 -> x ∉ R.
  Proof. exact (make_tiled_absent T0 org ti R idx x). Qed.
  Theorem C38_wrong_dimension (T0 : T) dim org ti :
    length ti <> dim -> make_tiled T0 dim org ti = Fail EException.
  Proof. exact (make_tiled_wrong T0 dim org ti). Qed.

  (** C39: [views] is the list of views handed to the callback, in order.  The
      divisibility of C37 is not needed. *)
  Theorem C39_tile_view (T0 : T) org R ti :
    length ti = 2 -> sizes_positive ti -> length org = extent_prod (strides_of ti) -> make_tiled T0 2 org ti = Ok R ->
    exists views : list tile_view,
      (forall S (f : tile_view -> S -> res S) s, iterate_tiles ti f s = foldR views f s) /\
      length views = extent_prod (counts_of ti) /\
      forall t, within t (counts_of ti) -> exists v,
        views !! row_major (counts_of ti) t = Some v /\
        tv_tile_index v = t /\ tv_tiles_dir v = counts_of ti /\ tv_size v = extent_prod (sizes_of ti) /\
        forall i, within i (sizes_of ti) -> exists x,
          org !! place_original ti t i = Some x /\
          tv_at_index R v i = Ok x /\ tv_at_offset R v (row_major (sizes_of ti) i) = Ok x.
  Proof. exact (views_spec T0 org R ti). Qed.

  (** C40 *)
  Theorem C40_undo_tiling_never_returns (T0 : T) tiled ti :
    exists e, undo_tiling T0 tiled ti = Fail e /\ (if length ti =? 2 then is_ub e = true else e = EException).
  Proof. exact (undo_never T0 tiled ti). Qed.
  Theorem C40_untiled_equal_strides (T0 : T) org R ti :
    length ti = 2 -> sizes_positive ti -> sizes_divide ti -> (exists s, Forall (fun i => stride i = s) ti) ->
    length org = extent_prod (strides_of ti) -> make_tiled T0 2 org ti = Ok R ->
    undo_tiling_body T0 R ti = Ok org /\ undo_tiling T0 R ti = Fail ENoReturn.
  Proof.
    intros H1 H2 H3 H4 H5 H6. pose proof (undo_body_equal T0 org R ti H1 H2 H3 H4 H5 H6) as E. split; [exact E|].
    unfold undo_tiling. rewrite E. reflexivity.
  Qed.
  (** For two different strides even the local array is not the original. *)
  Theorem C40_untiled_different_strides (T0 : T) org R a b s0 s1 :
    0 < a -> 0 < b -> 2 <= s0 -> 1 <= s1 -> s0 <> s1 ->
    length org = s0 * s1 -> NoDup org -> T0 ∉ org ->
    make_tiled T0 2 org [Tiling a s0; Tiling b s1] = Ok R ->
    undo_tiling_body T0 R [Tiling a s0; Tiling b s1] <> Ok org.
  Proof. exact (undo_body_unequal T0 org R a b s0 s1). Qed.

  (** C55, C56 *)
  Theorem C55_make_tiled_zero_tile (T0 : T) org pre a post :
    tile_size_dir a = 0 -> Forall (fun i => 0 < tile_size_dir i <= stride i) pre ->
    make_tiled T0 (length (pre ++ a :: post)) org (pre ++ a :: post) = Fail EDivZero.
  Proof. exact (make_tiled_zero T0 org pre a post). Qed.
  Theorem C56_make_tiled_short_array (T0 : T) org ti :
    sizes_positive ti -> sizes_divide ti -> length org < extent_prod (strides_of ti) ->
    make_tiled T0 (length ti) org ti = Fail EOob.
  Proof. exact (make_tiled_short T0 org ti). Qed.
End Properties9.

(** C41 *)
Theorem C41_flat_index_value index strides : length index = length strides ->
  flat_index index strides = Ok (row_major (reverse strides) index).
Proof. exact (flat_index_rev index strides). Qed.
Theorem C41_flat_index_equal_strides index strides s :
  length index = length strides -> Forall (fun w => w = s) strides ->
  flat_index index strides = Ok (row_major strides index).
Proof. exact (flat_index_equal index strides s). Qed.
Theorem C41_flat_index_different_strides s0 s1 : 2 <= s0 -> 1 <= s1 -> s0 <> s1 ->
  (exists idx idx' o, within idx [s0; s1] /\ within idx' [s0; s1] /\ idx <> idx' /\
     flat_index idx [s0; s1] = Ok o /\ flat_index idx' [s0; s1] = Ok o) \/
  (exists idx o, within idx [s0; s1] /\ flat_index idx [s0; s1] = Ok o /\ s0 * s1 <= o).
Proof. exact (flat_index_different s0 s1). Qed.

Print Assumptions C37_make_tiled.
Print Assumptions C37_places_distinct.
Print Assumptions C38_make_tiled_remainder.
Print Assumptions C38_remainder_ignored.
Print Assumptions C38_remainder_absent.
Print Assumptions C38_wrong_dimension.
Print Assumptions C39_tile_view.
Print Assumptions C40_undo_tiling_never_returns.
Print Assumptions C40_untiled_equal_strides.
Print Assumptions C40_untiled_different_strides.
Print Assumptions C55_make_tiled_zero_tile.
Print Assumptions C56_make_tiled_short_array.
Print Assumptions C41_flat_index_value.
Print Assumptions C41_flat_index_equal_strides.
Print Assumptions C41_flat_index_different_strides.
