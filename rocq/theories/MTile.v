(** Models of src/memory_layout: util.hpp, loop_nest.hpp, tile_array.hpp,
    tile_iterator.hpp, tile_view.hpp, tiling_info_dim.hpp.  Definitions only.

    These functions are sequential and work on vectors they own or are the only
    users of, so the model computes in [res] on lists.  Sizes are [nat]:
    wrap-around of size_t is not modelled.  std::array<size_t, dim> and
    size_t[dim] are lists with dim entries; an index array that the code fills
    dimension by dimension is a list that grows.  (tile_view_iterator.hpp names
    tile_view with two template arguments instead of three and is not included
    anywhere: it is not modelled.) *)
From Verif Require Export Base MIter.

(** tiling_info_dim.hpp:4-7 *)
Record tiling_info_dim := Tiling { tile_size_dir : nat; stride : nat }.

(** stride / tile_size_dir *)
Definition tiles_of (i : tiling_info_dim) : res nat :=
  if tile_size_dir i =? 0 then Fail EDivZero else Ok (stride i / tile_size_dir i).

(** util.hpp:4-13 and 15-25 *)
Definition flat_index (index strides : list nat) : res nat :=
  let dim := length index in
  let? s := foldR (seq 0 dim) (fun d (s : nat * nat) =>
    let? i := lget index ((dim - 1) - d) in
    let? w := lget strides d in
    Ok (s.1 + i * s.2, s.2 * w)) (0, 1) in
  Ok s.1.

(** A for loop with a state; a zero step never leaves the loop. *)
Definition forR {S} (lo hi st : nat) (f : nat -> S -> res S) (s : S) : res S :=
  if (lo <? hi) && (st =? 0) then let? _ := f lo s in Fail EDiverge
  else foldR (rng lo hi st) f s.

(** loop_nest.hpp:7-24 and 27-43: [dim] loops remain. *)
Fixpoint nest_looped {S} (dim cur_dim : nat) (mn mx step : list nat) (f : list nat -> S -> res S)
    (partial_index : list nat) (s : S) : res S :=
  match dim with
  | O => f partial_index s
  | Datatypes.S dim' =>
      let? lo := lget mn cur_dim in
      let? hi := lget mx cur_dim in
      let? st := lget step cur_dim in
      forR lo hi st (fun cur s => nest_looped dim' (Datatypes.S cur_dim) mn mx step f (partial_index ++ [cur]) s) s
  end.
(** loop_nest.hpp:47-51 and 54-59 *)
Definition ml_loop_nest {S} (dim : nat) (mn mx step : list nat) (f : list nat -> S -> res S) (s : S) : res S :=
  nest_looped dim 0 mn mx step f [] s.

(** The loops of the form
    [for d: acc += v(dim-1-d) * cur; cur *= w(dim-1-d)] in tile_array.hpp and
    tile_view.hpp: final value of acc. *)
Definition rev_offset (dim : nat) (v w : nat -> res nat) : res nat :=
  let? s := foldR (seq 0 dim) (fun d (s : nat * nat) =>
    let? i := v ((dim - 1) - d) in
    let? n := w ((dim - 1) - d) in
    Ok (s.1 + i * s.2, s.2 * n)) (0, 1) in
  Ok s.1.
(** The arrays min, max and stride of tile_array.hpp:49-75 and 198-209 *)
Definition tile_max (dim : nat) (tiling_info : list tiling_info_dim) : res (list nat) :=
  foldR (seq 0 dim) (fun d acc => let? i := lget tiling_info d in Ok (acc ++ [tile_size_dir i])) [].

Section Tile.
  Context {T : Type}.

  (** tile_array.hpp:18-144 *)
  Definition tile_dim_indices (dim : nat) (org : list T) (tiling_info : list tiling_info_dim)
      (tile_index : list nat) (tiled : list T) : res (list T) :=
    (* lines 32-38 *)
    let? skipped_blocks := rev_offset dim (lget tile_index) (fun d => let? i := lget tiling_info d in tiles_of i) in
    (* lines 42-44 *)
    let? skipped_blocks := foldR (seq 0 dim) (fun d sk => let? i := lget tiling_info d in Ok (sk * tile_size_dir i)) skipped_blocks in
    let? mx := tile_max dim tiling_info in
    (* lines 101-143 *)
    ml_loop_nest dim (replicate dim 0) mx (replicate dim 1) (fun inner_index tiled =>
      let? inner_flat_index := rev_offset dim (lget inner_index) (fun d => let? i := lget tiling_info d in Ok (tile_size_dir i)) in
      let? original_flat_index :=
        rev_offset dim (fun d =>
          let? t := lget tile_index d in
          let? i := lget tiling_info d in
          let? n := lget inner_index d in
          Ok (t * tile_size_dir i + n)) (fun d => let? i := lget tiling_info d in Ok (stride i)) in
      let? x := lget org original_flat_index in
      lset tiled (skipped_blocks + inner_flat_index) x) tiled.

  (** tile_array.hpp:146-167: [n] dimensions remain. *)
  Fixpoint tile_dim (dim n cur_dim : nat) (org : list T) (tiling_info : list tiling_info_dim)
      (partial_tile_index : list nat) (tiled : list T) : res (list T) :=
    match n with
    | O => tile_dim_indices dim org tiling_info partial_tile_index tiled
    | S n' =>
        let? cur_info := lget tiling_info cur_dim in
        let? tiles := tiles_of cur_info in
        foldR (seq 0 tiles) (fun tile_index_1d tiled =>
          tile_dim dim n' (S cur_dim) org tiling_info (partial_tile_index ++ [tile_index_1d]) tiled) tiled
    end.

  (** tile_array.hpp:171-185.  [T0]: the value T() of new entries (line 175). *)
  Definition make_tiled (T0 : T) (dim : nat) (org : list T) (tiling_info : list tiling_info_dim) : res (list T) :=
    if negb (length tiling_info =? dim) then Fail EException else
    tile_dim dim dim 0 org tiling_info [] (replicate (length org) T0).

  (** tile_view.hpp:11-46; the dimension is 2 in every instance, because
      iterate_tile_dim (tile_iterator.hpp:23) names tile_view<2, T, U>.  The
      reference to the tiled vector is a parameter of the accessors. *)
  Record tile_view := TileView {
    tv_base_offset : nat;
    tv_tile_index : list nat;
    tv_tiles_dir : list nat;
    tv_tiling_info : list tiling_info_dim;
    tv_size : nat }.
  Definition tile_view_new (tile_index : list nat) (tiling_info : list tiling_info_dim) : res tile_view :=
    let dim := 2 in
    let? i0 := lget tile_index 0 in
    let? i1 := lget tile_index 1 in
    let? tiles_dir := foldR (seq 0 dim) (fun d acc => let? i := lget tiling_info d in let? n := tiles_of i in Ok (acc ++ [n])) [] in
    let? tile_size := foldR (seq 0 dim) (fun d sz => let? i := lget tiling_info d in Ok (sz * tile_size_dir i)) 1 in
    let? base_offset := rev_offset dim (lget tile_index) (fun d => let? i := lget tiling_info d in tiles_of i) in
    Ok (TileView (base_offset * tile_size) [i0; i1] tiles_dir tiling_info tile_size).
  (** tile_view.hpp:68-76 *)
  Definition tv_flat_index (v : tile_view) (coord : list nat) : res nat :=
    rev_offset 2 (lget coord) (fun d => let? i := lget (tv_tiling_info v) d in Ok (tile_size_dir i)).
  (** tile_view.hpp:48 *)
  Definition tv_at_offset (tiled : list T) (v : tile_view) (tile_offset : nat) : res T :=
    lget tiled (tv_base_offset v + tile_offset).
  (** tile_view.hpp:50-53 and 55-60 *)
  Definition tv_at_index (tiled : list T) (v : tile_view) (inner_index : list nat) : res T :=
    let? tile_offset := tv_flat_index v inner_index in
    lget tiled (tv_base_offset v + tile_offset).

  (** tile_iterator.hpp:16-41: the callback works on a state [S]. *)
  Fixpoint iterate_tile_dim {S} (n cur_dim : nat) (tiling_info : list tiling_info_dim)
      (partial_tile_index : list nat) (f : tile_view -> S -> res S) (s : S) : res S :=
    match n with
    | O => let? v := tile_view_new partial_tile_index tiling_info in f v s
    | Datatypes.S n' =>
        let? cur_info := lget tiling_info cur_dim in
        let? tiles_dim := tiles_of cur_info in
        foldR (seq 0 tiles_dim) (fun tile_index_1d s =>
          iterate_tile_dim n' (Datatypes.S cur_dim) tiling_info (partial_tile_index ++ [tile_index_1d]) f s) s
    end.
  (** tile_iterator.hpp:43-48 *)
  Definition iterate_tiles {S} (tiling_info : list tiling_info_dim) (f : tile_view -> S -> res S) (s : S) : res S :=
    iterate_tile_dim 2 0 tiling_info [] f s.

  (** tile_array.hpp:191-240: the local vector [untiled] at the closing brace.
      Only dim = 2 compiles (get_tile_index returns std::array<size_t, 2>). *)
  Definition undo_tiling_body (T0 : T) (tiled : list T) (tiling_info : list tiling_info_dim) : res (list T) :=
    let dim := 2 in
    if negb (length tiling_info =? dim) then Fail EException else
    let? mx := tile_max dim tiling_info in
    let? untiled_strides := foldR (seq 0 dim) (fun d acc => let? i := lget tiling_info d in Ok (acc ++ [stride i])) [] in
    iterate_tiles tiling_info (fun view untiled =>
      let? index_offset := foldR (seq 0 dim) (fun d acc =>
        let? t := lget (tv_tile_index view) d in
        let? i := lget tiling_info d in
        Ok (acc ++ [t * tile_size_dir i])) [] in
      ml_loop_nest dim (replicate dim 0) mx (replicate dim 1) (fun inner_index untiled =>
        let? outer_index := foldR (seq 0 dim) (fun d acc =>
          let? i := lget inner_index d in
          let? o := lget index_offset d in
          Ok (acc ++ [i + o])) [] in
        let? flat_outer_index := flat_index outer_index untiled_strides in
        let? x := tv_at_index tiled view inner_index in
        lset untiled flat_outer_index x) untiled) (replicate (length tiled) T0).
  (** tile_array.hpp:189-241: the function has no return statement. *)
  Definition undo_tiling (T0 : T) (tiled : list T) (tiling_info : list tiling_info_dim) : res (list T) :=
    let? _ := undo_tiling_body T0 tiled tiling_info in Fail ENoReturn.
End Tile.
