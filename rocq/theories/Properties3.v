(** Theorems about the iteration library (properties C32 to C35). *)
From Coq Require Import Sorting.Sorted.
From Verif Require Import Tools MIter SpecIter PIter PIter2.

(** C32.  [ord] is the visiting order: the grid, each point once.  A sequential
    run of iterate_indices is the run of the callback over [ord]; in every
    schedule the callbacks with equal coordinates in the parallel dimensions are
    called once each and in the order of [ord]; and for every race-free callback whose
    calls at different parallel coordinates are independent, every schedule ends
    in the state of the sequential run over [ord]. *)
Theorem C32_iterate_indices_exactly_once dim p mn mx :
  nested dim (pconf p) -> length mn = dim -> length mx = dim -> Forall2 le mn mx ->
  match pconf p with (b, _) :: _ :: _ => divides_all b (extent mn mx) | _ => True end ->
  let pd := par_dims dim (pconf p) in
  exists ord,
    lists_grid mn mx (final_step (pconf p)) ord /\
    (forall T (f : list nat -> prog T unit) m,
       run (iterate_indices dim p mn mx f) m = run (foldP ord (fun x _ => f x) tt) m) /\
    (forall keys, (forall x, x ∈ ord -> coords pd x ∈ keys) ->
       always (call_log keys pd (iterate_indices dim p mn mx))
              (fun logs => logs = (fun k => filter (fun x => coords pd x = k) ord) <$> keys)) /\
    (forall T (f : list nat -> prog T unit) m m',
       (forall x, x ∈ ord -> drf (f x)) -> independent pd ord f ->
       run (foldP ord (fun x _ => f x) tt) m = Ok (tt, m') ->
       must (fun _ => False) (fun _ m1 => m1 = m') (iterate_indices dim p mn mx f) m).
Proof. exact (iterate_exactly_once dim p mn mx). Qed.
Print Assumptions C32_iterate_indices_exactly_once.

(** C33: without divisibility of the outermost block the same holds for the grid
    of the rounded-up extents, *)
Theorem C33_iterate_indices_rounds_up dim p b bpd c conf mn mx :
  pconf p = (b, bpd) :: c :: conf -> nested dim (pconf p) -> length mn = dim -> length mx = dim ->
  let pd := par_dims dim (pconf p) in
  exists ord,
    lists_grid mn (vadd2 mn (round_up (extent mn mx) b)) (final_step (pconf p)) ord /\
    (forall T (f : list nat -> prog T unit) m,
       run (iterate_indices dim p mn mx f) m = run (foldP ord (fun x _ => f x) tt) m) /\
    (forall keys, (forall x, x ∈ ord -> coords pd x ∈ keys) ->
       always (call_log keys pd (iterate_indices dim p mn mx))
              (fun logs => logs = (fun k => filter (fun x => coords pd x = k) ord) <$> keys)) /\
    (forall d bd m x, Forall2 lt mn mx -> final_step (pconf p) = replicate dim 1 ->
       b !! d = Some bd -> mn !! d = Some m -> mx !! d = Some x -> ~ (bd | x - m) ->
       exists q, q ∈ ord /\ q !! d = Some x).
Proof. exact (iterate_rounds_up dim p b bpd c conf mn mx). Qed.
Print Assumptions C33_iterate_indices_rounds_up.

(** C34 *)
Theorem C34_dim_index_iterator_enumerates mn mx st :
  length mx = length mn -> length st = length mn -> positive st -> Forall2 lt mn mx ->
  let n := prodl (counts mn mx st) in
  exists l, dim_index_iterator mn mx st = Ok mn /\ iterates n mn mx st mn = Ok l /\
    lists_grid mn mx st l /\
    (forall k, k < n -> l !! k = Some (at_digits mn st (digits (counts mn mx st) k))) /\
    (forall k, iterates (n + k) mn mx st mn = Ok (l ++ replicate k (at_digits mn st (digits (counts mn mx st) (n - 1))))).
Proof. exact (dim_index_iterator_enumerates mn mx st). Qed.
Print Assumptions C34_dim_index_iterator_enumerates.

(** C35 *)
Theorem C35_loop_nest_lexicographic {T : Type} dim mn mx st :
  length mn = dim -> length mx = dim -> length st = dim -> positive st ->
  exists l, lists_grid mn mx st l /\ StronglySorted lex_lt l /\
    forall (f : list nat -> prog T unit) m,
      run (loop_nest dim mn mx st f) m = run (foldP l (fun p _ => f p) tt) m.
Proof. exact (loop_nest_lex dim mn mx st). Qed.
Theorem C35_loop_nest_zero_step_diverges {T : Type} dim mn mx st (f : list nat -> prog T unit) m :
  length mn = dim -> length mx = dim -> length st = dim -> Forall2 lt mn mx -> Exists (fun s => s = 0) st ->
  (forall p, drf (f p)) -> (forall p, err_in (fun _ => False) (f p)) ->
  must_fail (fun e => e = EDiverge) (loop_nest dim mn mx st f) m.
Proof. exact (loop_nest_diverges_all dim mn mx st f m). Qed.
Print Assumptions C35_loop_nest_lexicographic.
Print Assumptions C35_loop_nest_zero_step_diverges.
