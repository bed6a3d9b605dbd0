(** What a printed number means: how a decimal numeral is read, and when a decimal
    number is the right one to print. *)
From Coq Require Import ZArith Reals Ascii String.
From Flocq Require Import Core IEEE754.Binary IEEE754.Bits.
From Verif Require Import Base MDouble.
Local Open Scope Z_scope.

Definition ten : radix := Build_radix 10 eq_refl.

(** A run of digits behind a number [m]: the number, how many digits, the rest *)
Definition as_digit (c : ascii) : option Z :=
  let n := Z.of_N (N_of_ascii c) in if (48 <=? n) && (n <=? 57) then Some (n - 48) else None.
Fixpoint read_digits (m n : Z) (s : string) : Z * Z * string :=
  match s with
  | EmptyString => (m, n, s)
  | String c s' => match as_digit c with Some d => read_digits (10 * m + d) (n + 1) s' | None => (m, n, s) end
  end.
(** digits [. digits] [e sign digits]: the result (m, k) means m * 10^k *)
Definition read_exponent (m k : Z) (s : string) : option (Z * Z) :=
  match s with
  | EmptyString => Some (m, k)
  | String "e" (String c s) =>
      match read_digits 0 0 s with
      | (x, n, EmptyString) =>
          if n =? 0 then None
          else if (c =? "+")%char then Some (m, k + x)
          else if (c =? "-")%char then Some (m, k - x)
          else None
      | _ => None
      end
  | _ => None
  end.
Definition read_unsigned (s : string) : option (Z * Z) :=
  let '(m, n, s) := read_digits 0 0 s in
  if n =? 0 then None else
  match s with
  | String "." s => let '(m, f, s) := read_digits m 0 s in if f =? 0 then None else read_exponent m (- f) s
  | _ => read_exponent m 0 s
  end.
Definition read (s : string) : option (Z * Z) :=
  match s with
  | String "-" s => match read_unsigned s with Some (m, k) => Some (- m, k) | None => None end
  | _ => read_unsigned s
  end.
Definition denotes (s : string) (v : R) : Prop :=
  exists m k, read s = Some (m, k) /\ v = (IZR m * bpow ten k)%R.

(** Numbers with at most P significant decimal digits *)
Definition short_decimal (P : nat) (v : R) : Prop :=
  exists m k, Z.abs m < 10 ^ Z.of_nat P /\ v = (IZR m * bpow ten k)%R.
(** [v] is one of them, and none is closer to [x]. *)
Definition closest_decimal (P : nat) (x v : R) : Prop :=
  short_decimal P v /\ forall w, short_decimal P w -> (Rabs (v - x) <= Rabs (w - x))%R.

(** * The form of a numeral *)
(** No fraction ends in the digit 0 and no point stands without a fraction: [point]
    tells that the point has been read, [bad] that the last character was the point
    or the digit 0. *)
Fixpoint tidy (point bad : bool) (s : string) : bool :=
  match s with
  | EmptyString => negb (point && bad)
  | String c s =>
      if (c =? "e")%char then negb (point && bad)
      else if (c =? ".")%char then tidy true true s
      else tidy point (c =? "0")%char s
  end.
Definition without_sign (s : string) : string := match s with String "-" s => s | _ => s end.
(** A leading 0 is the only digit before the point. *)
Definition no_leading_zero (s : string) : Prop :=
  match without_sign s with String "0" (String c _) => as_digit c = None | _ => True end.
(** One digit before the point, which is not 0 *)
Definition one_digit (s : string) : Prop :=
  match without_sign s with String c (String c' _) => c <> "0"%char /\ as_digit c' = None | _ => False end.
