(** C74: 64-bit index arithmetic.  [main_w M64] is the application with every index
    and counter computed modulo 2^64; [main] computes them without bound. *)
From Verif Require Import Base Conc Num Spec SpecTiled SpecSched SpecApp SpecDomain SpecWord PApp Properties10 PWord PWord5 PWord6 MWordApp.

Section Properties20.
  Context {T : Type} `{NumOps T}.
  Context (absdiff : T -> T -> T) (small : T -> bool) (o : options) (localities : nat) (gen : nat -> T).
  Notation N := (o_n o).
  Notation main_w := (main_w M64 absdiff small o localities gen).
  Notation main := (main absdiff small o localities gen).

  (** Where nothing wraps, the two programs are the same program. *)
  Theorem C74_no_wrap_same :
    (Z.of_nat N * Z.of_nat N < 2 ^ 64)%Z -> (Z.of_nat (o_repetitions o) < 2 ^ 64)%Z ->
    (forall v, (o_algorithm o, v) ∈ accepted -> no_wrap o v) -> main_w = main.
  Proof.
    intros HN Hr. apply main_w_eq; [eapply toM; [|exact HN]; lia|eapply toM; [|exact Hr]; lia].
  Qed.
  Theorem C74_ordinary_sizes v : (o_algorithm o, v) ∈ accepted -> ordinary o v -> main_w = main.
  Proof.
    intros Hin Ho. destruct (ordinary_no_wrap o v Ho) as (Hn&HN&Hr). apply main_w_eq; [done..|].
    intros v' Hin'. assert (v' = v) as ->; [|done].
    exact (accepted_inj _ _ _ Hin' Hin).
  Qed.
  (** C58 with 64-bit indices. *)
  Theorem C74_end_to_end v : o_help o = false -> (o_algorithm o, v) ∈ accepted -> flag_ok o v -> suitable o localities v ->
    ordinary o v ->
    unit_on (nzero : T) -> (forall k, k < N * N -> unit_on (gen k) /\ small (absdiff (gen k) (gen k)) = true) ->
    app_always (tolerated v) main_w
      (fun r => r = Outcome 0 false (if o_check o then Some true else None) (gen <$> seq 0 (N * N))).
  Proof. intros Hh Hin Hf Hs Ho. rewrite (C74_ordinary_sizes v Hin Ho). by apply C58_end_to_end. Qed.

  (** If N * N itself wraps, no algorithm is reached: writing B (or printing A) runs
      into the range check of at(). *)
  Theorem C74_square_wraps : o_help o = false -> (Z.of_nat N < 2 ^ 64 <= Z.of_nat N * Z.of_nat N)%Z ->
    app_fails (fun e => e = EOutOfRange) main_w.
  Proof.
    intros Hh [H1 H2]. apply main_wrap; [done|eapply toM; [|exact H1]; lia|].
    apply Nat2Z.inj_le. rewrite M64_Z, Nat2Z.inj_mul. exact H2.
  Qed.

  (** looped gives the zero matrix, reported as success, if the number of blocks is
      a multiple of 2^64. *)
  Theorem C74_looped_wraps :
    o_help o = false -> o_algorithm o = "looped"%string -> o_transposed o = true -> o_check o = false -> o_verbose o < 2 ->
    (Z.of_nat N * Z.of_nat N < 2 ^ 64)%Z -> 0 < o_block_result o -> 0 < o_block_input o ->
    ((2 ^ 64 | Z.of_nat (N / o_block_result o) * Z.of_nat (N / o_block_result o) * Z.of_nat (N / o_block_input o)))%Z ->
    app_always (fun _ => False) main_w (fun r => r = Outcome 0 false None (replicate (N * N) nzero)).
  Proof.
    intros Hh Ha Ht Hc Hv HN Hbr Hbi [q Hq]. apply main_looped_wraps; try assumption.
    - eapply toM; [|exact HN]; lia.
    - apply Nat.mod_divide; [pose proof M64_pos; lia|]. exists (Z.to_nat q). apply Nat2Z.inj.
      rewrite !Nat2Z.inj_mul, M64_Z, Hq. f_equal. rewrite Z2Nat.id; [done|]. lia.
  Qed.
End Properties20.

(** So the claim of C58 fails for 64-bit indices without a bound on the size:
    with N = 2^22 and blocks of one element every condition of C58 is met. *)
Theorem C74_no_size_bound_refuted : exists o,
  (Z.of_nat (o_n o) = 2 ^ 22)%Z /\ o_help o = false /\ (o_algorithm o, Looped) ∈ accepted /\ flag_ok o Looped /\
  forall localities, suitable o localities Looped /\ computes o localities Looped /\
  forall (T : Type) (HT : NumOps T) (absdiff : T -> T -> T) small gen,
    app_always (fun _ => False) (main_w M64 absdiff small o localities gen)
      (fun r => r = Outcome 0 false None (replicate (o_n o * o_n o) nzero)).
Proof. exact looped_unbounded_wrong. Qed.

Print Assumptions C74_no_wrap_same.
Print Assumptions C74_ordinary_sizes.
Print Assumptions C74_end_to_end.
Print Assumptions C74_square_wraps.
Print Assumptions C74_looped_wraps.
Print Assumptions C74_no_size_bound_refuted.
