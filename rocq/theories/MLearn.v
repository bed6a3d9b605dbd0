(** Model of learning/MetaProgrammingCPP.cpp.  Definitions only.  T is size_t in the
    only instance, so loop variables are [nat]; none of them exceeds max, so no
    wrap-around can occur. *)
From Coq Require Import String Ascii Decimal DecimalString.
From Verif Require Export Base MIter MTile.
Local Open Scope nat_scope.

(** lines 11-15 and 17-23: the pack args is a list that grows; the callback works on
    a state (what it captures by reference and what is printed; f is copied at every
    call, so a state inside f would not be kept). *)
Fixpoint learn_execute_looped {S} (dim : nat) (mn mx : nat) (f : list nat -> S -> res S) (args : list nat) (s : S) : res S :=
  match dim with
  | O => f args s
  | Datatypes.S dim' => forR mn mx 1 (fun cur s => learn_execute_looped dim' mn mx f (args ++ [cur]) s) s
  end.

(** lines 25-41 *)
Record looper := Looper { lp_dim : nat; lp_min : nat; lp_max : nat }.
Definition iterate_simple {S} (l : looper) (f : list nat -> S -> res S) (s : S) : res S :=
  learn_execute_looped (lp_dim l) (lp_min l) (lp_max l) f [] s.

(** operator<< on a size_t *)
Definition show (n : nat) : string := NilEmpty.string_of_uint (Nat.to_uint n).
Definition newline : string := String (ascii_of_nat 10) EmptyString.
(** lines 47-52: the state is what has been printed *)
Definition print_pair (args : list nat) (out : string) : res string :=
  let? cur0 := lget args 0 in
  let? cur1 := lget args 1 in
  let out := if (0 <? cur0) || (0 <? cur1) then (out ++ ", ")%string else out in
  Ok (out ++ "(" ++ show cur0 ++ ", " ++ show cur1 ++ ")")%string.
(** lines 43-56, with the bounds of line 45 as arguments: the output of the program *)
Definition learning_main (mn mx : nat) : res string :=
  let? out := iterate_simple (Looper 2 mn mx) print_pair EmptyString in
  Ok (out ++ newline)%string.
(** line 45 *)
Definition learning_shipped : res string := learning_main 0 10.
