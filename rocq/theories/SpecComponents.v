(** What a name service may answer. *)
From Coq Require Import String.
From Verif Require Import Base Conc MComponents.

(** Every question is answered by one of the components registered under that name;
    several questions may be answered differently. *)
Definition answers {T} (reg : registry T) (resolve : arr -> string -> option (object T)) : Prop :=
  forall path name, match resolve path name with
  | Some ob => (name, ob) ∈ reg
  | None => forall ob, (name, ob) ∉ reg
  end.
(** None of the names is in use. *)
Definition unused {T} (reg : registry T) (names : list string) : Prop := forall name ob, (name, ob) ∈ reg -> name ∉ names.
