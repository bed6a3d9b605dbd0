(** C89: components and their names. *)
From Coq Require Import ZArith Ascii String.
From Verif Require Import Base Conc ConcFacts Num Spec Tools MRecursive MSchedule SpecSched PSchedule PRecursive PPseudo Properties1 Properties2 PVerbose2 PVerbose3 PComponents
  MVerbose MComponents SpecComponents MApp SpecApp SpecTranscript SpecVerbose.

(** C89: the names of the components of different localities or kinds differ. *)
Theorem C89_names k k' : multiplier_name k <> recursive_name k' /\ (k <> k' -> multiplier_name k <> multiplier_name k' /\ recursive_name k <> recursive_name k').
Proof.
  split; [exact (names_differ k k')|]. intros Hk. split; intros E; apply Hk; [exact (multiplier_inj k k' E)|exact (recursive_inj k k' E)].
Qed.
Print Assumptions C89_names.

Section Runs.
  Context {T : Type} `{NumOps T}.
  Context (A B : list T) (transposed : bool) (bi br : nat).
  Implicit Types (resolve : arr -> string -> option (object T)).

  (** C89: single.  However the questions are answered, the run is the one of C08 and
      C09, and so is that of the application. *)
  Theorem C89_single_same here N reps old resolve : unused old [multiplier_name here; recursive_name here] ->
    answers (old ++ single_registry here N A B transposed bi br) resolve ->
    single_named resolve here N br reps = single_matrix_multiply N A B transposed bi br reps.
  Proof. exact (single_named_eq A B transposed bi br here N reps old resolve). Qed.
  Theorem C89_application_same here o old resolve : unused old [multiplier_name here; recursive_name here] ->
    answers (old ++ single_registry here (o_n o) A B (o_transposed o) (o_block_input o) (o_block_result o)) resolve ->
    app_single_named resolve here o = app_single o A B.
  Proof. exact (app_named_eq here A B o old resolve). Qed.
  Theorem C89_single_product `{!Exact T} here N ms d reps old resolve :
    length A = N * N -> length B = N * N ->
    N = ms * 2 ^ d -> ms <= br -> d = 0 \/ br < 2 * ms -> leaf_ok transposed bi ms N -> 0 < reps ->
    unused old [multiplier_name here; recursive_name here] ->
    answers (old ++ single_registry here N A B transposed bi br) resolve ->
    always (single_named resolve here N br reps) (is_matrix N (pentry transposed N A B)).
  Proof.
    intros HA HB HN H1 H2 H3 Hr Hu Ha. rewrite (single_named_eq A B transposed bi br here N reps old resolve Hu Ha).
    exact (C09_single_product N A B transposed bi br ms d reps HA HB HN H1 H2 H3 Hr).
  Qed.

  (** C89: pseudodynamic on the localities [ids]. *)
  Theorem C89_pseudodynamic_same N root ids mws maxd rel reps all old resolve : root ∈ ids ->
    (Z.of_nat N * Z.of_nat N < 2 ^ 62)%Z -> (0 <= mws)%Z ->
    create_schedule (Z.of_nat N) mws maxd rel (S (N * N * N)) (if 1 <? length ids then length ids - 1 else length ids) = Ok all ->
    unused old (map multiplier_name (compute_ids root ids) ++ map recursive_name (compute_ids root ids)) ->
    answers (old ++ static_registry root ids N A B transposed bi br all reps) resolve ->
    static_improved_named resolve root ids N br mws maxd rel reps =
    static_improved_matrix_multiply N A B transposed bi br mws maxd rel (length ids) reps.
  Proof.
    intros Hroot HN Hm Hc Hu Ha. refine (static_named_eq A B transposed bi br N root ids mws maxd rel reps old resolve all Hroot Hc _ Hu Ha).
    exact (schedule_length (Z.of_nat N) mws maxd rel ltac:(lia) HN Hm _ _ all Hc).
  Qed.
  Theorem C89_pseudodynamic_product `{!Exact T} N root ids mws maxd rel reps all old resolve : root ∈ ids ->
    (Z.of_nat N * Z.of_nat N < 2 ^ 62)%Z -> (0 <= mws)%Z -> 0 < reps -> length A = N * N -> length B = N * N ->
    even_chain (Z.of_nat N) mws -> (forall n, size_of (Z.of_nat N) mws n -> rec_ok transposed bi br N (Z.to_nat n)) ->
    create_schedule (Z.of_nat N) mws maxd rel (S (N * N * N)) (if 1 <? length ids then length ids - 1 else length ids) = Ok all ->
    unused old (map multiplier_name (compute_ids root ids) ++ map recursive_name (compute_ids root ids)) ->
    answers (old ++ static_registry root ids N A B transposed bi br all reps) resolve ->
    always (static_improved_named resolve root ids N br mws maxd rel reps) (is_matrix N (pentry transposed N A B)).
  Proof.
    intros Hroot HN Hm Hr HA HB He Hs Hc Hu Ha. rewrite (C89_pseudodynamic_same N root ids mws maxd rel reps all old resolve Hroot HN Hm Hc Hu Ha).
    assert (HL : 0 < length ids) by (destruct ids; [by apply elem_of_nil in Hroot|cbn; lia]).
    exact (C19_pseudodynamic_product A B transposed bi br mws maxd rel (length ids) reps N HN Hm HL Hr HA HB He Hs).
  Qed.
  (** C89: no call leaves its locality: the components found are on the locality that
      asks, and carry the matrices and block sizes of the run. *)
  Theorem C89_local N root ids reps all old resolve : 
    unused old (map multiplier_name (compute_ids root ids) ++ map recursive_name (compute_ids root ids)) ->
    answers (old ++ static_registry root ids N A B transposed bi br all reps) resolve ->
    forall i k ws, compute_ids root ids !! i = Some k -> all !! i = Some ws -> ws <> [] -> 0 < reps -> forall path,
      resolve path (multiplier_name k) = Some (Object k (Multiplier N A B transposed bi)) /\
      resolve path (recursive_name k) = Some (Object k (Recursive br)).
  Proof.
    intros Hu Ha i k ws Hk Hw Hne Hr path.
    destruct (static_found N A B transposed bi br root ids all reps old resolve k Hu Ha) as [H1 H2]; [by apply elem_of_list_lookup_2 in Hk|].
    split; [apply H1|]. apply H2; [exact Hr|]. destruct ws as [|w ws]; [done|]. exists i, w. split; [|exact Hk]. apply indexed_in. eexists. split; [exact Hw|by left].
  Qed.
  (** C89: all lines about a package are written by its locality. *)
  Theorem C89_lines N root ids reps all old resolve print :
    unused old (map multiplier_name (compute_ids root ids) ++ map recursive_name (compute_ids root ids)) ->
    answers (old ++ static_registry root ids N A B transposed bi br all reps) resolve ->
    (forall k, ~ occurs ":"%char (print k)) -> 0 < reps ->
    forall i k ws w fuel path line h x y n, compute_ids root ids !! i = Some k -> all !! i = Some ws -> w ∈ ws ->
      line ∈ trace_named resolve print fuel path k br (Z.to_nat (wx w)) (Z.to_nat (wy w)) (Z.to_nat (wN w)) ->
      ~ occurs ":"%char h -> says line h x y n ->
      h = print k /\ Z.to_nat (wx w) <= x /\ x + n <= Z.to_nat (wx w) + Z.to_nat (wN w) /\ Z.to_nat (wy w) <= y /\ y + n <= Z.to_nat (wy w) + Z.to_nat (wN w).
  Proof.
    intros Hu Ha Hp Hr i k ws w fuel path line h x y n Hk Hw Hin Hline Hh Hs.
    assert (Hne : ws <> []) by (intros ->; by apply elem_of_nil in Hin).
    pose proof (C89_local N root ids reps all old resolve Hu Ha i k ws Hk Hw Hne Hr) as Hl.
    rewrite (trace_named_eq resolve k br (fun p => proj2 (Hl p)) print) in Hline.
    exact (trace_inside _ _ _ _ _ _ _ _ _ _ _ (Hp k) Hh Hline Hs).
  Qed.
  (** C89: that the product is that of the run's own matrices is refuted if a multiplier
      of an earlier run is still registered: the service may answer with it. *)
  Theorem C89_stale_refuted `{!Exact T} (A' B' : list T) here N ms d reps :
    length A' = N * N -> length B' = N * N ->
    N = ms * 2 ^ d -> ms <= br -> d = 0 \/ br < 2 * ms -> leaf_ok transposed bi ms N -> 0 < reps ->
    let reg := (multiplier_name here, Object here (Multiplier N A' B' transposed bi)) :: single_registry here N A B transposed bi br in
    exists resolve, answers reg resolve /\ always (single_named resolve here N br reps) (is_matrix N (pentry transposed N A' B')).
  Proof.
    intros HA HB HN H1 H2 H3 Hr reg. exists (oldest reg). split; [apply oldest_answers|].
    rewrite (stale_eq here N A B A' B' transposed bi br reps). exact (C09_single_product N A' B' transposed bi br ms d reps HA HB HN H1 H2 H3 Hr).
  Qed.
End Runs.
Print Assumptions C89_single_same.
Print Assumptions C89_application_same.
Print Assumptions C89_single_product.
Print Assumptions C89_pseudodynamic_same.
Print Assumptions C89_pseudodynamic_product.
Print Assumptions C89_local.
Print Assumptions C89_lines.
Print Assumptions C89_stale_refuted.
