(** Specification for the test suites of the memory layout. *)
From Coq Require Import ZArith Reals.
From Flocq Require Import IEEE754.Binary IEEE754.Bits.
From Verif Require Import MCeil MDouble.
From Verif Require Export MTests2 SpecTile.
Local Open Scope nat_scope.

(** The number at row i, column j of tile (ti, tj), if the entries of an N x N
    matrix with tiles of b x b entries are counted row by row. *)
Definition counted (N b ti tj i j : nat) : Z := Z.of_nat ((ti * b + i) * N + (tj * b + j)).
(** [R] holds tile (ti, tj) of that matrix where it belongs, number by number. *)
Definition tile_right (N b : nat) (R : list binary64) (ti tj : nat) : Prop :=
  forall i j, i < b -> j < b -> exists x,
    R !! ((ti * (N / b) + tj) * (b * b) + (i * b + j)) = Some x /\
    finite64 x = true /\ val64 x = IZR (counted N b ti tj i j).
Definition corners_right (N b : nat) (R : list binary64) : Prop :=
  let last := N / b - 1 in
  tile_right N b R 0 0 /\ tile_right N b R 0 last /\ tile_right N b R last 0 /\ tile_right N b R last last.

(** The constants of a test belong together: the reference vectors list the
    corner tiles. *)
Definition reference_fits (N b ti tj : nat) (l : list Z) : Prop :=
  forall i j, i < b -> j < b -> l !! (i * b + j) = Some (counted N b ti tj i j).
Definition fits (L : layout_test) : Prop :=
  let N := l_N L in let b := l_tile L in let last := N / b - 1 in
  0 < b /\ b <= N /\ l_stride L = N /\ l_width L = b /\ l_row L = N / b /\ l_last L = last /\
  (Z.of_nat (N * N) <= 2 ^ 53)%Z /\
  reference_fits N b 0 0 (l_first L) /\ reference_fits N b 0 last (l_first_end L) /\
  reference_fits N b last 0 (l_first_last L) /\ reference_fits N b last last (l_bottom L).

(** A function in the place of iterate_tiles that visits the tiles [ts] in that order. *)
Definition visiting (ts : list (list nat)) {S} (ti : list tiling_info_dim) (f : tile_view -> S -> res S) (s : S) : res S :=
  foldR ts (fun t s => let? v := tile_view_new t ti in f v s) s.
(** The row-major order of q x q tiles. *)
Definition row_by_row (q : nat) (ts : list (list nat)) : Prop :=
  length ts = q * q /\ forall k, k < q * q -> ts !! k = Some [k / q; k mod q].
(** Tile (ti, tj) is one of the four corners of q x q tiles. *)
Definition is_corner (q ti tj : nat) : Prop := (ti = 0 \/ ti = q - 1) /\ (tj = 0 \/ tj = q - 1).
