(** More about the command line (C87): every option by its name. *)
From Coq Require Import ZArith NArith Ascii String.
From stdpp Require Import list.
From Verif Require Import MCmdline SpecCmdline SpecCmdline2 PCmdline6.
Local Open Scope string_scope.

(** C87: each of the eleven options takes the values of its kind, and no others. *)
Theorem C87_each_option strtod accepts name type text : (name, type) ∈ documented -> text <> "" ->
  (forall v, means strtod type text v -> parse strtod accepts [] ["--" ++ name ++ "=" ++ text] = Parsed [(name, v)]) /\
  ((forall v, ~ means strtod type text v) -> parse strtod accepts [] ["--" ++ name ++ "=" ++ text] = Rejected).
Proof. exact (each_option strtod accepts name type text). Qed.
Print Assumptions C87_each_option.
(** C87: --help takes none. *)
Theorem C87_help strtod accepts text :
  parse strtod accepts [] ["--help"] = Parsed [("help", VString "")] /\ parse strtod accepts [] ["--help=" ++ text] = Rejected.
Proof. exact (help_flag strtod accepts text). Qed.
Print Assumptions C87_help.
