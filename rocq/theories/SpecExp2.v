(** Specifications for the AVX and assembler kernels of /repo/otherExperiments,
    independent of the models. *)
From Verif Require Export SpecExp.

Section SpecExp2.
  Context {T : Type} `{NumOps T}.
  (** The operation used for x*y+z (fused or not). *)
  Context (fma : T -> T -> T -> T).

  (** fma(x_k, y_k, ... fma(x_0, y_0, 0)) *)
  Definition fma_dot (x y : nat -> T) (ks : list nat) : T :=
    foldl (fun acc k => fma (x k) (y k) acc) nzero ks.
  (** Row i of A with column j of B, k ascending. *)
  Definition fma_entry (N : nat) (A B : list T) (i j : nat) : T :=
    fma_dot (ent N A i) (fun k => ent N B k j) (seq 0 N).

  (** Four lanes per chunk as in [dot_lanes], every lane an [fma_dot]; B is
      given transposed. *)
  Definition fma_lane (kc : nat) (x y : nat -> T) (base l : nat) : T :=
    fma_dot (fun r => x (base + 4 * r + l)) (fun r => y (base + 4 * r + l)) (seq 0 (kc / 4)).
  Definition fma_lanes_entry (kc N : nat) (A B : list T) (i j : nat) : T :=
    foldl (fun acc q => foldl (fun acc l => nadd acc (fma_lane kc (ent N A i) (ent N B j) (q * kc) l)) acc (seq 0 4))
      nzero (seq 0 (N / kc)).

  (** Two rows of eight registers whose update hits the wrong register: the
      register of row r = i mod 8 and half h = (j mod 8)/4 has number p = 2r+h.
      At every k it receives the product for row p-2 and the second half if
      2 <= p < 10, then the product for row p and the first half if p < 8. *)
  Definition misplaced_entry (N : nat) (A B : list T) (i j : nat) : T :=
    let p := 2 * (i mod 8) + j mod 8 / 4 in
    let row r := ent N A (i / 8 * 8 + r) in
    let col h k := ent N B k (j / 8 * 8 + 4 * h + j mod 4) in
    foldl (fun acc k =>
      let acc := if (2 <=? p) && (p <? 10) then fma (row (p - 2) k) (col 1 k) acc else acc in
      if p <? 8 then fma (row p k) (col 0 k) acc else acc) nzero (seq 0 N).

  (** An exact x*y+z. *)
  Definition fma_exact : Prop := forall x y z, fma x y z = nadd z (nmul x y).
End SpecExp2.
