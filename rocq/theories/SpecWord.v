(** Sizes for which 64-bit index arithmetic does not wrap around. *)
From Verif Require Export SpecApp.

(** The largest intermediate value of the index arithmetic of algorithm [v] stays
    below 2^64. *)
Definition no_wrap (o : options) (v : choice) : Prop :=
  let N := Z.of_nat (o_n o) in
  let br := Z.of_nat (o_block_result o) in
  let bi := Z.of_nat (o_block_input o) in
  (match v with
   | Single => N * N < 2 ^ 64 /\ (o_transposed o = true -> bi <> 0 -> (N + 4) * (N + bi) < 2 ^ 64)
   | Pseudodynamic => N * N < 2 ^ 62 /\ 0 <= o_min_work_size o /\
       (o_transposed o = true -> bi <> 0 -> (N + 4) * (N + bi) < 2 ^ 64)
   | Algorithms => (N + 2 * br + 2) * (N + br + bi) + 2 < 2 ^ 64
   | Looped => N * N * N < 2 ^ 64 /\ 2 * N * (N + 1) + 1 < 2 ^ 64 /\ N + br < 2 ^ 64 /\ N + bi < 2 ^ 64
   | Semi => (N + 4) * (N + bi) + N + bi + 6 < 2 ^ 64
   | Combined | KernelTiled => 16 * ((N + 428) * (N + 428)) < 2 ^ 64
   | KernelTest => 16 * ((N + 520) * (N + 520)) < 2 ^ 64
   | Proposal => True
   end)%Z.

(** Sizes up to 2^29: one matrix of doubles of that size takes 2^61 bytes, more than
    any machine can address.  looped numbers the elementary products with one
    64-bit number. *)
Definition ordinary (o : options) (v : choice) : Prop :=
  (Z.of_nat (o_n o) <= (match v with Looped => 2 ^ 21 | _ => 2 ^ 29 end) /\
   Z.of_nat (o_block_result o) <= 2 ^ 29 /\ Z.of_nat (o_block_input o) <= 2 ^ 29 /\
   Z.of_nat (o_repetitions o) < 2 ^ 64 /\
   (v = Pseudodynamic -> 0 <= o_min_work_size o))%Z.
