(** What a decimal numeral is, read off its characters. *)
From Coq Require Import String Ascii.
From Verif Require Import Base.
Local Open Scope nat_scope.

(** The value of a string of decimal digits behind digits of value [acc]. *)
Fixpoint digits_value (acc : nat) (s : string) : option nat :=
  match s with
  | EmptyString => Some acc
  | String c r =>
    let d := nat_of_ascii c in
    if (48 <=? d) && (d <=? 57) then digits_value (10 * acc + (d - 48)) r else None
  end.
(** [s] is the decimal numeral of [n] without superfluous zeros. *)
Definition numeral (n : nat) (s : string) : Prop :=
  digits_value 0 s = Some n /\ s <> EmptyString /\
  forall r, s = String "0" r -> r = EmptyString.
