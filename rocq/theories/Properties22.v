(** C77, C78: the test suites of the memory layout; learning/MetaProgrammingCPP.cpp. *)
From Coq Require Import ZArith Reals String.
From Flocq Require Import IEEE754.Binary IEEE754.Bits.
From Verif Require Import Base Num MCeil MDouble MTests MTile SpecTile MTests2 SpecLayout PLayout1 PLayout2 PLayout3 MLearn SpecLearn PLearn.
Local Open Scope nat_scope.

(** C77: the tolerance of the suite test_tile_view leaves no room: a double passes
    against an integer reference only if it is that integer. *)
Theorem C77_close_means_equal (x : binary64) (z : Z) : (0 <= z < 2 ^ 53)%Z ->
  check_close (double_literal (Dec 1 15)) x (double_of z) = true <-> finite64 x = true /\ val64 x = IZR z.
Proof. exact (close15_exact x z). Qed.
Print Assumptions C77_close_means_equal.

(** C77: whatever stands in the place of make_tiled, the suite test_tile_view
    passes exactly if the four corner tiles are right. *)
Theorem C77_view_verdict L tiling R : fits L -> tiling (counted_matrix (l_N L)) (test_tiling L) = Ok R -> length R = l_N L * l_N L ->
  exists v, test_view tiling L = Ok v /\ (v = true <-> corners_right (l_N L) (l_tile L) R).
Proof. intros Hf. exact (view_verdict L Hf tiling R). Qed.
Print Assumptions C77_view_verdict.

(** C77: whatever stands in the place of make_tiled and iterate_tiles, the suite
    test_iterate_tiles passes exactly if all tiles are visited row by row and
    the four corner tiles are right. *)
Theorem C77_iterate_verdict L tiling R ts : fits L -> 2 <= l_N L / l_tile L ->
  tiling (counted_matrix (l_N L)) (test_tiling L) = Ok R -> length R = l_N L * l_N L ->
  Forall (fun t => within t (counts_of (test_tiling L))) ts ->
  exists v, test_iterate tiling (visiting ts) L = Ok v /\
    (v = true <-> row_by_row (l_N L / l_tile L) ts /\ corners_right (l_N L) (l_tile L) R).
Proof. intros Hf Hq Ht HR Hts. rewrite (ti_counts L Hf) in Hts. exact (iterate_verdict L Hf tiling R ts Hq Ht HR Hts). Qed.
Print Assumptions C77_iterate_verdict.

(** C77: both suites pass with the shipped functions, for all constants that fit
    and so for the shipped ones. *)
Theorem C77_suites_pass L : fits L ->
  test_view (make_tiled nzero 2) L = Ok true /\
  (2 <= l_N L / l_tile L -> test_iterate (make_tiled nzero 2) iterate_tiles L = Ok true).
Proof. intros Hf. split; [exact (view_passes L Hf)|exact (iterate_passes L Hf)]. Qed.
Print Assumptions C77_suites_pass.
Theorem C77_shipped_suites_pass :
  fits shipped_layout /\ test_view (make_tiled nzero 2) shipped_layout = Ok true /\
  test_iterate (make_tiled nzero 2) iterate_tiles shipped_layout = Ok true.
Proof.
  split; [exact shipped_fits|]. split; [exact (view_passes _ shipped_fits)|].
  apply (iterate_passes _ shipped_fits). cbn [l_N l_tile shipped_layout]. change (256 / 4) with 64. lia.
Qed.
Print Assumptions C77_shipped_suites_pass.

(** C77: the claim that a function passing both suites tiles the matrix is false
    for every choice of constants with three or more tiles in a row, the shipped
    one among them. *)
Theorem C77_passing_means_tiled_refuted L : fits L -> 3 <= l_N L / l_tile L ->
  exists tiling R, tiling (counted_matrix (l_N L)) (test_tiling L) = Ok R /\
    test_view tiling L = Ok true /\ test_iterate tiling iterate_tiles L = Ok true /\
    ~ is_tiled (test_tiling L) (counted_matrix (l_N L)) R.
Proof. exact (blind_suites L). Qed.
Print Assumptions C77_passing_means_tiled_refuted.

(** C78: iterate_simple calls the callback on all tuples in lexicographic order, for
    every dimension, all bounds and every callback. *)
Theorem C78_calls dim mn mx : exists cs, all_tuples dim mn mx cs /\
  forall S (f : list nat -> S -> res S) s, iterate_simple (Looper dim mn mx) f s = foldR cs f s.
Proof. exact (looper_calls dim mn mx). Qed.
Print Assumptions C78_calls.
(** C78: the output of the program, for every upper bound; the shipped one is 10. *)
Theorem C78_output mx : learning_main 0 mx = Ok (String.concat ", " (pair_texts 0 mx) ++ newline)%string.
Proof. exact (learning_from_0 mx). Qed.
Print Assumptions C78_output.
Theorem C78_shipped_output : learning_shipped = Ok (String.concat ", " (pair_texts 0 10) ++ newline)%string.
Proof. exact (learning_from_0 10). Qed.
Print Assumptions C78_shipped_output.
(** C78: with a lower bound above 0 the separator also precedes the first pair. *)
Theorem C78_separated_refuted mn mx : 0 < mn -> mn < mx ->
  learning_main mn mx = Ok (", " ++ String.concat ", " (pair_texts mn mx) ++ newline)%string /\
  learning_main mn mx <> Ok (String.concat ", " (pair_texts mn mx) ++ newline)%string.
Proof.
  intros H0 Hm. pose proof (learning_above_0 mn mx H0 Hm) as E. split; [exact E|]. rewrite E. clear E.
  generalize (String.concat ", " (pair_texts mn mx) ++ newline)%string. intros s E.
  assert (E' : (", " ++ s)%string = s) by congruence. clear E. apply (f_equal String.length) in E'.
  change (S (S (String.length s)) = String.length s) in E'. lia.
Qed.
Print Assumptions C78_separated_refuted.
