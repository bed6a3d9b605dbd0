(** How a stream prints numbers.  Definitions only.

    [os << x] for a double x on a stream whose format flags are untouched is
    printf("%.*g", precision, x) (the C++ standard, [facet.num.put.virtuals]); the
    precision is 6 unless std::setprecision is used.  As in glibc the digits are
    the exact value of x rounded to nearest, ties to even. *)
From Coq Require Import ZArith Ascii String Decimal DecimalString.
From Flocq Require Import Core IEEE754.Binary IEEE754.Bits.
From Verif Require Import Base MDouble.
Local Open Scope Z_scope.

(** [os << n] for an unsigned integer *)
Definition show_int (n : N) : string := NilEmpty.string_of_uint (N.to_uint n).

(** The n lowest decimal digits of d, the highest first *)
Fixpoint digits (n : nat) (d : Z) : list Z :=
  match n with O => [] | S n' => digits n' (d / 10) ++ [d mod 10] end.
Definition digit (d : Z) : ascii := ascii_of_N (Z.to_N (48 + d)).
Fixpoint text (ds : list Z) : string :=
  match ds with [] => EmptyString | d :: ds => String (digit d) (text ds) end.
(** Without the trailing zeros *)
Fixpoint strip (ds : list Z) : list Z :=
  match ds with
  | [] => []
  | d :: ds => match strip ds with [] => if d =? 0 then [] else [d] | r => d :: r end
  end.

(** num / den rounded to an integer, ties to even *)
Definition nearest (num den : Z) : Z :=
  let q := num / den in
  match 2 * (num mod den) ?= den with
  | Lt => q
  | Gt => q + 1
  | Eq => if Z.even q then q else q + 1
  end.
(** The exponent of the leading decimal digit of num / den: from above and from
    below 1 *)
Fixpoint log10_up (fuel : nat) (q : Z) : Z :=
  match fuel with
  | O => 0
  | S fuel => if q <? 10 then 0 else 1 + log10_up fuel (q / 10)
  end.
Fixpoint log10_down (fuel : nat) (num den : Z) : Z :=
  match fuel with
  | O => 0
  | S fuel => if den <=? num then 0 else log10_down fuel (10 * num) den - 1
  end.
Definition log10 (num den : Z) : Z :=
  if den <=? num then log10_up (Z.to_nat (Z.log2 (num / den))) (num / den)
  else log10_down (S (Z.to_nat (Z.log2 den))) num den.
(** num / den rounded to P significant digits: the digits as one integer, and the
    exponent of the first of them *)
Definition decimal (P : nat) (num den : Z) : Z * Z :=
  let X := log10 num den in
  let k := Z.of_nat P - 1 - X in
  let D := if 0 <=? k then nearest (num * 10 ^ k) den else nearest num (den * 10 ^ (- k)) in
  if D =? 10 ^ Z.of_nat P then (10 ^ (Z.of_nat P - 1), X + 1) else (D, X).

(** Digits before and behind the decimal point; %g drops trailing zeros and a
    decimal point without digits behind it. *)
Definition with_point (i f : list Z) : string :=
  text i ++ match strip f with [] => "" | f => "." ++ text f end.
(** The exponent has a sign and at least two digits. *)
Definition show_exponent (X : Z) : string :=
  "e" ++ (if X <? 0 then "-" else "+") ++ text (digits (if Z.abs X <? 100 then 2 else 3) (Z.abs X)).
Definition show_digits (P : nat) (D X : Z) : string :=
  let ds := digits P D in
  if (X <? -4) || (Z.of_nat P <=? X) then with_point (take 1 ds) (drop 1 ds) ++ show_exponent X
  else if X <? 0 then with_point [0] (replicate (Z.to_nat (- X - 1)) 0 ++ ds)
  else with_point (take (Z.to_nat (X + 1)) ds) (drop (Z.to_nat (X + 1)) ds).

(** [os << x] with precision P *)
Definition show64 (P : nat) (x : binary64) : string :=
  let sign (s : bool) := (if s then "-" else "")%string in
  match x with
  | B754_zero _ _ s => sign s ++ "0"
  | B754_infinity _ _ s => sign s ++ "inf"
  | B754_nan _ _ s _ _ => sign s ++ "nan"
  | B754_finite _ _ s m e _ =>
      let '(D, X) := decimal P (Z.pos m * 2 ^ Z.max 0 e) (2 ^ Z.max 0 (- e)) in
      sign s ++ show_digits P D X
  end.
