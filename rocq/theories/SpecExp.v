(** Specifications for the kernels of /repo/otherExperiments, independent of
    the models. *)
From Verif Require Export Spec.

Section SpecExp.
  Context {T : Type} `{NumOps T}.

  (** C[i,j] + A[i,0]*B[0,j] + A[i,1]*B[1,j] + ..., added left to right to the
      old contents of C. *)
  Definition acc_entry (N : nat) (A B C : list T) (i j : nat) : T :=
    foldl (fun acc k => nadd acc (nmul (ent N A i k) (ent N B k j))) (ent N C i j) (seq 0 N).
  (** The same with B given transposed. *)
  Definition acc_t_entry (N : nat) (A B C : list T) (i j : nat) : T :=
    foldl (fun acc k => nadd acc (nmul (ent N A i k) (ent N B j k))) (ent N C i j) (seq 0 N).

  (** Only the products number 0, 4, 8, ... of row i of A with row j of B. *)
  Definition every4_entry (N : nat) (A B : list T) (i j : nat) : T :=
    dot (fun q => nmul (ent N A i (4 * q)) (ent N B j (4 * q))) (seq 0 (N / 4)).

  (** A sum of [N] terms in chunks of [kc]: inside a chunk, lane l adds the terms
      number l, l+4, l+8, ... of the chunk, from zero; the four lanes of all
      chunks are added one after another. *)
  Definition lane (kc : nat) (f : nat -> T) (base l : nat) : T :=
    dot (fun r => f (base + 4 * r + l)) (seq 0 (kc / 4)).
  Definition dot_lanes (kc : nat) (f : nat -> T) (N : nat) : T :=
    foldl (fun acc q => foldl (fun acc l => nadd acc (lane kc f (q * kc) l)) acc (seq 0 4))
      nzero (seq 0 (N / kc)).
  Definition lanes_entry (kc N : nat) (A B : list T) (i j : nat) : T :=
    dot_lanes kc (fun k => nmul (ent N A i k) (ent N B j k)) N.
End SpecExp.
