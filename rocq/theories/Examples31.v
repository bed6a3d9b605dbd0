(** Concrete cases for Properties31. *)
From Coq Require Import ZArith NArith Ascii String.
From stdpp Require Import list.
From Verif Require Import MCmdline SpecCmdline SpecCmdline2 Properties31.
Local Open Scope string_scope.

Example ex_C87_each : parse (fun _ => None) (fun _ => false) [] ["--check=ON"] = Parsed [("check", VBool true)].
Proof.
  apply (C87_each_option (fun _ => None) (fun _ => false) "check" TBool "ON"); [|discriminate|].
  - unfold documented. rewrite !elem_of_cons. do 6 right. by left.
  - eapply means_true with (t := "on"); [right; left|]. apply (spelled_capital "O"); [by vm_compute|]. apply (spelled_capital "N"); [by vm_compute|]. constructor.
Qed.
(** No conversion: every value of the option of type double is rejected. *)
Example ex_C87_each_rejected : parse (fun _ => None) (fun _ => false) [] ["--max-relative-work-difference=0.1"] = Rejected.
Proof.
  apply (C87_each_option (fun _ => None) (fun _ => false) "max-relative-work-difference" TDouble "0.1"); [|discriminate|].
  - unfold documented. rewrite !elem_of_cons. do 10 right. by left.
  - intros v Hv. inversion Hv; subst; discriminate.
Qed.
Example ex_C87_help := C87_help (fun _ => None) (fun _ => true) "yes".
