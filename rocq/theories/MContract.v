(** Contraction of a*b+c.  /repo/CMakeLists.txt:51,57 compile with
    -march=native, and GCC then evaluates a*b+c with one rounding (an FMA
    instruction) wherever it likes (-ffp-contract=fast is its default).
    Definitions only.

    The kernels are generic in the number type.  Here they run on terms: the
    result of a run is the expression that the code evaluates, not yet a number.
    [compiled e v] says that some choice of contractions makes the machine code
    of [e] return the double [v]; the choice may differ from operation to
    operation. *)
From Coq Require Import ZArith.
From Flocq Require Import Core IEEE754.Binary IEEE754.Bits.
From Verif Require Import Base Num MCeil MDouble.

Inductive term :=
| TNum (x : binary64)
| TAdd (a b : term)
| TMul (a b : term).

Global Instance Term_ops : NumOps term :=
  {| nzero := TNum nzero; none1 := TNum none1; nadd := TAdd; nmul := TMul |}.

(** vfmadd: x*y+z with one rounding *)
Notation fma64 := (b64_fma rne).

Inductive compiled : term -> binary64 -> Prop :=
| compiled_num x : compiled (TNum x) x
| compiled_add a b x y : compiled a x -> compiled b y -> compiled (TAdd a b) (nadd x y)
| compiled_mul a b x y : compiled a x -> compiled b y -> compiled (TMul a b) (nmul x y)
| compiled_fma_r c a b z x y : compiled c z -> compiled a x -> compiled b y ->
    compiled (TAdd c (TMul a b)) (fma64 x y z)
| compiled_fma_l c a b z x y : compiled c z -> compiled a x -> compiled b y ->
    compiled (TAdd (TMul a b) c) (fma64 x y z).

(** No operation is contracted. *)
Fixpoint separate (e : term) : binary64 :=
  match e with
  | TNum x => x
  | TAdd a b => nadd (separate a) (separate b)
  | TMul a b => nmul (separate a) (separate b)
  end.
