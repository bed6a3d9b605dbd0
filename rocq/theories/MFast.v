(** -ffast-math.  /repo/otherExperiments/Makefile:14 and 27-28 compile the
    experiments with -ffast-math -funsafe-math-optimizations: GCC may then evaluate
    a sum in any order and with any brackets, drop additions of zero and exchange
    the factors of a product, and with -mfma (line 11) contract a*b+c as in
    MContract.v.  Definitions only.

    As in MContract.v a kernel runs on terms.  The licence to factor out (a*b+a*c =
    a*(b+c)) is not modelled: the products of one entry have no factor in common
    that the compiler could see.  Neither is the licence to assume that there are no
    infinities and NaNs, which the theorems assume of the final results. *)
From Coq Require Import ZArith.
From Flocq Require Import Core IEEE754.Binary IEEE754.Bits.
From Verif Require Import Base Num MCeil MDouble MContract.

Inductive rearranged : term -> term -> Prop :=
| re_refl e : rearranged e e
| re_sym e e' : rearranged e e' -> rearranged e' e
| re_trans e e' e'' : rearranged e e' -> rearranged e' e'' -> rearranged e e''
| re_add a a' b b' : rearranged a a' -> rearranged b b' -> rearranged (TAdd a b) (TAdd a' b')
| re_add_comm a b : rearranged (TAdd a b) (TAdd b a)
| re_add_assoc a b c : rearranged (TAdd (TAdd a b) c) (TAdd a (TAdd b c))
| re_add_zero a : rearranged (TAdd (TNum nzero) a) a
| re_mul_comm a b : rearranged (TMul a b) (TMul b a).

(** The machine code of [e] may return [v]. *)
Definition machine (e : term) (v : binary64) : Prop := exists e', rearranged e e' /\ compiled e' v.
