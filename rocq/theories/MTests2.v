(** Models of the two test suites of src/memory_layout:
    src/tests/test_tile_view.cpp and src/tests/test_iterate_tiles.cpp.
    Definitions only.

    A test case yields the conjunction of its Boost checks; BOOST_CHECK_CLOSE and
    BOOST_CHECK_EQUAL go on after a failed check, and so does the model.  The
    function under test is a parameter ([tiling], [iterating]), so that the
    verdict of the tests on other functions can be stated; the shipped tests
    instantiate it with make_tiled and iterate_tiles. *)
From Coq Require Import ZArith.
From Flocq Require Import IEEE754.Binary IEEE754.Bits.
From Verif Require Import MCeil MDouble MTests.
From Verif Require Export Base MIter MTile.
Local Open Scope nat_scope.

(** The constants of a test: N, untiled_stride and tile_size
    (test_tile_view.cpp:23-25, test_iterate_tiles.cpp:11-13), the row width in
    reference[i * 4 + j] (test_tile_view.cpp:15, test_iterate_tiles.cpp:49), the
    coordinate 63 and the number 64 of tiles of a row (test_iterate_tiles.cpp:53
    and 88), and the four reference vectors, whose literals are integers. *)
Record layout_test := Layout {
  l_N : nat; l_stride : nat; l_tile : nat;
  l_width : nat; l_last : nat; l_row : nat;
  l_first : list Z; l_first_end : list Z; l_first_last : list Z; l_bottom : list Z }.

(** test_tile_view.cpp:26-31, test_iterate_tiles.cpp:14-19: the static counter
    starts at 0, because each of the two lambdas has its own and is used once; the
    int becomes a double. *)
Definition counted_matrix (N : nat) : list binary64 := (fun k => double_of (Z.of_nat k)) <$> seq 0 (N * N).
(** test_tile_view.cpp:33-37, test_iterate_tiles.cpp:21-25 *)
Definition test_tiling (L : layout_test) : list tiling_info_dim :=
  [Tiling (l_tile L) (l_stride L); Tiling (l_tile L) (l_stride L)].

(** test_tile_view.cpp:13-17 and test_iterate_tiles.cpp:47-51, 57-61, 68-72,
    78-82: compare the entries of a view with a reference vector.  [same] is the
    Boost check, [ok] whether all checks before have passed. *)
Definition compare_view (same : binary64 -> binary64 -> bool) (L : layout_test) (tiled : list binary64)
    (view : tile_view) (reference : list Z) (ok : bool) : res bool :=
  forR 0 (l_tile L) 1 (fun i ok =>
    forR 0 (l_tile L) 1 (fun j ok =>
      let? x := tv_at_index tiled view [i; j] in
      let? r := lget (double_of <$> reference) (i * l_width L + j) in
      Ok (ok && same x r)) ok) ok.

(** BOOST_CHECK_CLOSE(view(i, j), reference[i * 4 + j], 1E-15) *)
Definition close15 (x r : binary64) : bool := check_close (double_literal (Dec 1 15)) x r.
(** test_tile_view.cpp:7-18 *)
Definition compare_tile (L : layout_test) (tiled : list binary64) (tile_index : list nat)
    (reference : list Z) (ok : bool) : res bool :=
  let? view := tile_view_new tile_index (test_tiling L) in
  compare_view close15 L tiled view reference ok.

(** test_tile_view.cpp:22-79 *)
Definition test_view (tiling : list binary64 -> list tiling_info_dim -> res (list binary64)) (L : layout_test) : res bool :=
  let? tiled_matrix := tiling (counted_matrix (l_N L)) (test_tiling L) in
  if l_tile L =? 0 then Fail EDivZero else
  let last := l_stride L / l_tile L - 1 in
  let? ok := compare_tile L tiled_matrix [0; 0] (l_first L) true in
  let? ok := compare_tile L tiled_matrix [0; last] (l_first_end L) ok in
  let? ok := compare_tile L tiled_matrix [last; 0] (l_first_last L) ok in
  compare_tile L tiled_matrix [last; last] (l_bottom L) ok.

(** The variables the callback of test_iterate_tiles.cpp:38-92 captures (lines
    29-36), with the checks passed so far. *)
Record visit := Visit {
  vi_i : nat; vi_j : nat;
  case0 : bool; case1 : bool; case2 : bool; case3 : bool;
  vi_ok : bool }.
Definition visit_start : visit := Visit 0 0 false false false false true.
(** test_iterate_tiles.cpp:39-91 *)
Definition visit_view (L : layout_test) (tiled : list binary64) (view : tile_view) (s : visit) : res visit :=
  let? t0 := lget (tv_tile_index view) 0 in
  let? t1 := lget (tv_tile_index view) 1 in
  let '(Visit i j c0 c1 c2 c3 ok) := s in
  let ok := ok && (t0 =? i) && (t1 =? j) in
  let? r :=
    if (i =? 0) && (j =? 0) then
      let? ok := compare_view eq64 L tiled view (l_first L) ok in Ok (true, c1, c2, c3, ok)
    else if (i =? 0) && (j =? l_last L) then
      let? ok := compare_view eq64 L tiled view (l_first_end L) ok in Ok (c0, true, c2, c3, ok)
    else if (i =? l_last L) && (j =? 0) then
      let? ok := compare_view eq64 L tiled view (l_first_last L) ok in Ok (c0, c1, true, c3, ok)
    else if (i =? l_last L) && (j =? l_last L) then
      let? ok := compare_view eq64 L tiled view (l_bottom L) ok in Ok (c0, c1, c2, true, ok)
    else Ok (c0, c1, c2, c3, ok) in
  let '(c0, c1, c2, c3, ok) := r in
  let j := j + 1 in
  Ok (if j =? l_row L then Visit (i + 1) 0 c0 c1 c2 c3 ok else Visit i j c0 c1 c2 c3 ok).

(** test_iterate_tiles.cpp:10-97 *)
Definition test_iterate (tiling : list binary64 -> list tiling_info_dim -> res (list binary64))
    (iterating : list tiling_info_dim -> (tile_view -> visit -> res visit) -> visit -> res visit)
    (L : layout_test) : res bool :=
  let? tiled_matrix := tiling (counted_matrix (l_N L)) (test_tiling L) in
  let? s := iterating (test_tiling L) (visit_view L tiled_matrix) visit_start in
  Ok (vi_ok s && case0 s && case1 s && case2 s && case3 s).

(** The literals of both files: test_tile_view.cpp:44-45, 53-54, 62-63, 71-72 and
    test_iterate_tiles.cpp:45-46, 55-56, 65-67, 76-77. *)
Definition shipped_layout : layout_test := Layout 256 256 4 4 63 64
  [0;   1;   2;   3;   256; 257; 258; 259;
   512; 513; 514; 515; 768; 769; 770; 771]%Z
  [252; 253; 254; 255; 508;  509;  510;  511;
   764; 765; 766; 767; 1020; 1021; 1022; 1023]%Z
  [64512; 64513; 64514; 64515; 64768; 64769; 64770; 64771;
   65024; 65025; 65026; 65027; 65280; 65281; 65282; 65283]%Z
  [64764; 64765; 64766; 64767; 65020; 65021; 65022; 65023;
   65276; 65277; 65278; 65279; 65532; 65533; 65534; 65535]%Z.
