(** Which order each algorithm uses, and the arithmetic that goes into an entry:
    specification for the counting theorems. *)
From Verif Require Import Base Num Spec SpecTiled MTiled MKTest SpecContract SpecRound MApp SpecApp.

(** The order in which algorithm [v] may sum up an entry. *)
Definition order_of (o : options) (v : choice) (q : summation) : Prop :=
  let chunks := Chunks (o_block_input o) in
  match v with
  | Single | Pseudodynamic => q = Straight \/ (o_transposed o = true /\ 0 < o_block_input o /\ q = chunks)
  | Algorithms | Semi => q = chunks
  | Looped => q = Straight
  | Combined | KernelTiled => q = Padded shipped
  | KernelTest => q = Padded kt_shipped
  | Proposal => False
  end.

(** Formulas over the two input matrices: [Entry false p] is the p-th number of A,
    [Entry true p] that of B. *)
Inductive formula := Zero | One | Entry (of_B : bool) (p : nat) | Plus (x y : formula) | Times (x y : formula).
Global Instance formula_ops : NumOps formula := {| nzero := Zero; none1 := One; nadd := Plus; nmul := Times |}.

(** The numbers of additions and of multiplications in a formula. *)
Fixpoint additions (t : formula) : nat :=
  match t with Plus x y => S (additions x + additions y) | Times x y => additions x + additions y | _ => 0 end.
Fixpoint multiplications (t : formula) : nat :=
  match t with Plus x y => multiplications x + multiplications y | Times x y => S (multiplications x + multiplications y) | _ => 0 end.
(** The summands of a formula from left to right, without the zeros a sum
    starts with. *)
Fixpoint summands (t : formula) : list formula :=
  match t with Zero => [] | Plus x y => summands x ++ summands y | _ => [t] end.

(** The matrix whose numbers are the unknowns themselves *)
Definition unknowns (of_B : bool) (N : nat) : list formula := Entry of_B <$> seq 0 (N * N).

(** The k-th product of entry (i,j): a[i,k] * b[k,j], or a[i,k] * b[j,k] for a
    transposed B; beyond the matrix 0 * 0 or what the padding leaves of it. *)
Definition product (transposed : bool) (N i j k : nat) : formula :=
  if decide (k < N) then Times (Entry false (i * N + k)) (Entry true (if transposed then j * N + k else k * N + j))
  else Times Zero Zero.
(** How many products algorithm [v] adds up for an entry. *)
Definition width (v : choice) (N : nat) : nat :=
  match v with Combined | KernelTiled => round_up N 256 | KernelTest => round_up N 512 | _ => N end.
(** The additions beyond one per product: those that add up the chunks. *)
Definition chunk_additions (o : options) (v : choice) (e : nat) : Prop :=
  let N := o_n o in
  match v with
  | Single | Pseudodynamic => e = 0 \/ (o_transposed o = true /\ 0 < o_block_input o /\ e = N / o_block_input o)
  | Algorithms | Semi => e = N / o_block_input o
  | Looped => e = 0
  | Combined | KernelTiled => e = round_up N 256 / 64
  | KernelTest => e = round_up N 512 / 16
  | Proposal => False
  end.

Definition total (count : formula -> nat) (C : list formula) : nat := sum_list_with count C.
(** Algorithms that never, and that always, add up chunks. *)
Definition never_chunked (o : options) (v : choice) : Prop :=
  match v with Looped => True | Single | Pseudodynamic => o_transposed o = false \/ o_block_input o = 0 | _ => False end.
Definition always_chunked (v : choice) : Prop :=
  match v with Algorithms | Semi | Combined | KernelTest | KernelTiled => True | _ => False end.
