(** The exact set of inputs for which each algorithm computes the product. *)
From Verif Require Export Spec SpecTiled SpecSched SpecApp.

Section Over.
  Context {T : Type} `{NumOps T}.
  (** A dot product in chunks of [b] whose last chunk runs over the end of the
      rows: positions N, N+1, ... of row i are the beginning of the next row. *)
  Definition over_entry (b N : nat) (A B : list T) (i j : nat) : T :=
    dot (fun q => dot (fun k => nmul (ent N A i k) (ent N B j k)) (seq (q * b) b)) (seq 0 (cdiv N b)).
End Over.

(** The packages of a schedule cover the matrix, and the recursive component
    handles every package. *)
Definition covered (o : options) (all : list (list work)) : Prop :=
  (forall i j, i < o_n o -> j < o_n o -> 0 < hits (Z.of_nat i) (Z.of_nat j) (concat all)) /\
  forall w, w ∈ concat all -> rec_ok (o_transposed o) (o_block_input o) (o_block_result o) (o_n o) (Z.to_nat (wN w)).

(** The options for which algorithm [v] computes the product (theorem C73 says
    that this is the exact set). *)
Definition computes (o : options) (localities : nat) (v : choice) : Prop :=
  let N := o_n o in
  match v with
  | Single => 0 < o_repetitions o /\ rec_ok (o_transposed o) (o_block_input o) (o_block_result o) N N
  | Pseudodynamic => 0 < o_repetitions o /\ exists all,
      create_schedule (Z.of_nat N) (o_min_work_size o) (o_max_work_difference o) (o_rel o) (S (N * N * N))
        (if 1 <? localities then localities - 1 else localities) = Ok all /\ covered o all
  | Algorithms | Looped => 0 < o_block_result o /\ 0 < o_block_input o /\ (o_block_result o | N) /\ (o_block_input o | N)
  | Semi => 0 < o_block_input o /\ (4 | N) /\ (o_block_input o | N)
  | Combined => o_repetitions o = 1
  | Proposal => False
  | KernelTest => 0 < o_repetitions o /\ (4 | N) /\ SpecTiled.round_up N 512 <= N + 63 /\ o_transposed o = false
  | KernelTiled => 0 < o_repetitions o /\ (o_transposed o = false \/ N = 1)
  end.
(** Sizes for which the scheduler's 64-bit arithmetic does not wrap. *)
Definition in_range (o : options) (v : choice) : Prop :=
  v = Pseudodynamic -> (Z.of_nat (o_n o) * Z.of_nat (o_n o) < 2 ^ 62)%Z /\ (0 <= o_min_work_size o)%Z.
