(** Specification of tiled arrays, independent of the code's loops. *)
From Verif Require Export Base MTile.

(** Product, and row-major offset of an index in an array with extents [ws]. *)
Fixpoint extent_prod (ws : list nat) : nat := match ws with [] => 1 | w :: ws => w * extent_prod ws end.
Fixpoint row_major (ws idx : list nat) : nat :=
  match ws, idx with w :: ws, i :: idx => i * extent_prod ws + row_major ws idx | _, _ => 0 end.
(** [idx] lies inside an array with extents [ws]. *)
Definition within (idx ws : list nat) : Prop := Forall2 lt idx ws.

(** Extents of the whole array, of one tile, and numbers of tiles. *)
Definition strides_of (ti : list tiling_info_dim) : list nat := stride <$> ti.
Definition sizes_of (ti : list tiling_info_dim) : list nat := tile_size_dir <$> ti.
Definition counts_of (ti : list tiling_info_dim) : list nat := (fun i => stride i / tile_size_dir i) <$> ti.
Definition sizes_positive (ti : list tiling_info_dim) : Prop := Forall (fun i => 0 < tile_size_dir i) ti.
Definition sizes_divide (ti : list tiling_info_dim) : Prop := Forall (fun i => (tile_size_dir i | stride i)) ti.

(** The entry with tile coordinates [t] and in-tile coordinates [i]: where it is
    in the original array, and where in the tiled one (tile after tile). *)
Definition place_original (ti : list tiling_info_dim) (t i : list nat) : nat :=
  row_major (strides_of ti) (zip_with Nat.add (zip_with Nat.mul t (sizes_of ti)) i).
Definition place_tiled (ti : list tiling_info_dim) (t i : list nat) : nat :=
  row_major (counts_of ti) t * extent_prod (sizes_of ti) + row_major (sizes_of ti) i.

(** [R] holds the tiles of [org]. *)
Definition is_tiled {T} (ti : list tiling_info_dim) (org R : list T) : Prop :=
  length R = length org /\
  forall t i, within t (counts_of ti) -> within i (sizes_of ti) ->
    exists x, org !! place_original ti t i = Some x /\ R !! place_tiled ti t i = Some x.
(** Number of entries that lie in full tiles. *)
Definition tiled_entries (ti : list tiling_info_dim) : nat := extent_prod (counts_of ti) * extent_prod (sizes_of ti).
(** An index of the original array that lies in no full tile. *)
Definition in_remainder (ti : list tiling_info_dim) (idx : list nat) : Prop :=
  within idx (strides_of ti) /\
  exists (d : nat) i c, ti !! d = Some i /\ idx !! d = Some c /\ stride i / tile_size_dir i * tile_size_dir i <= c.
