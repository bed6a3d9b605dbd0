(** Specifications for the benchmark program, independent of its model. *)
From Coq Require Import String.
From Verif Require Export SpecExp2.

Section SpecBench.
  Context {T : Type} `{NumOps T}.
  (** The sum of the squares of a matrix, row by row. *)
  Definition sum_sq (n : nat) (f : nat -> nat -> T) : T :=
    dot (fun q => nmul (f (q / n) (q mod n)) (f (q / n) (q mod n))) (seq 0 (n * n)).
  (** What x*y+z has to satisfy for the entries of the benchmark's matrices. *)
  Definition fma_unit (two : T) (fma : T -> T -> T -> T) : Prop :=
    fma two nzero nzero = nzero /\ fma two nzero two = two /\ fma two none1 nzero = two.
  Definition bench_numbers (two : T) : Prop :=
    nmul two none1 = two /\ nmul none1 two = two /\ nmul two nzero = nzero /\ nmul nzero two = nzero /\
    nadd nzero two = two /\ nadd two nzero = two /\ nadd nzero nzero = nzero.
End SpecBench.
(** The accepted arguments of the benchmark that compute the product. *)
Definition right_names : list string :=
  ["naive"; "transposed"; "counter"; "exchanged"; "blocked2"; "asm"; "gpu"; "gpuasm"; "register"; "intrinLoop"]%string.
(** Where new[] can put the n*n+8 doubles of an array (in bytes): aligned for
    doubles, inside the address space. *)
Definition good_address (n : nat) (base : Z) : Prop :=
  (0 <= base)%Z /\ (8 | base)%Z /\ (base + 8 * (Z.of_nat n * Z.of_nat n + 8) <= 2 ^ 64)%Z.
