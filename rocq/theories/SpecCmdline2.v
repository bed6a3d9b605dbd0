(** The options that take a value, and its kind. *)
From Coq Require Import String.
From stdpp Require Import list.
From Verif Require Import MCmdline.
Local Open Scope string_scope.

Definition documented : list (string * vtype) :=
  [("n-value", TUnsigned); ("transposed", TBool); ("repetitions", TUnsigned); ("verbose", TUnsigned); ("block-result", TUnsigned);
   ("block-input", TUnsigned); ("check", TBool); ("algorithm", TString); ("min-work-size", TUnsigned); ("max-work-difference", TUnsigned);
   ("max-relative-work-difference", TDouble)].
