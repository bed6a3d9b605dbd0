(** Outcomes, loops and index ranges shared by all models. *)
From stdpp Require Export prelude list gmap.
From Coq Require Export Lia ZArith.

(** Ways in which a C++ execution can go wrong.  Every one of these is a
    distinct outcome of the model; none is silently turned into a value. *)
Inductive err :=
| EOob          (* operator[] outside the vector: undefined behaviour *)
| EMisaligned   (* vector_aligned load/store at an unaligned address: UB *)
| EDivZero      (* integer division by zero: UB *)
| ENoReturn     (* flowing off the end of a non-void function: UB *)
| EEmpty        (* back()/pop_back()/front() on an empty vector: UB *)
| EDangling     (* read through a pointer to a destroyed object: UB *)
| EOverflow     (* signed integer overflow: UB *)
| EType         (* an object read at a type it does not have: UB *)
| EOutOfRange   (* std::out_of_range thrown by .at() and not caught *)
| ETerminate    (* `throw;` without an active exception: std::terminate *)
| EException    (* one of the project's exception classes, not caught *)
| EDiverge.     (* the loop never terminates *)

Global Instance err_eq_dec : EqDecision err.
Proof. solve_decision. Defined.

(** Errors that the C++ standard classifies as undefined behaviour. *)
Definition is_ub (e : err) : bool :=
  match e with
  | EOob | EMisaligned | EDivZero | ENoReturn | EEmpty | EDangling | EOverflow | EType => true
  | _ => false
  end.

Inductive res (A : Type) := Ok (a : A) | Fail (e : err).
Arguments Ok {A} a.
Arguments Fail {A} e.

Definition rbind {A B} (r : res A) (f : A -> res B) : res B :=
  match r with Ok a => f a | Fail e => Fail e end.
(** v[i] of a std::vector held by value *)
Definition lget {A} (v : list A) (i : nat) : res A :=
  match v !! i with Some a => Ok a | None => Fail EOob end.

(** Index sequence of [for (i = lo; i < hi; i += st)] for a positive step.
    The fuel [hi - lo] is enough for every positive step (lemma in
    LoopFacts.v); the zero step is handled by the loop combinators. *)
Fixpoint rng_fuel (fuel cur hi st : nat) : list nat :=
  match fuel with
  | O => []
  | S f => if cur <? hi then cur :: rng_fuel f (cur + st) hi st else []
  end.
Definition rng (lo hi st : nat) : list nat := rng_fuel (hi - lo) lo hi st.

(** Ceiling division on nat (used where the C++ code rounds up). *)
Definition cdiv (a b : nat) : nat := (a + (b - 1)) / b.

(** 64-bit machine integers: results of uint64_t/size_t operations are taken
    modulo 2^64; conversion to int64_t takes the two's complement value. *)
Definition u64 (z : Z) : Z := (z mod 2 ^ 64)%Z.
Definition s64 (z : Z) : Z := (if u64 z <? 2 ^ 63 then u64 z else u64 z - 2 ^ 64)%Z.
(** int64_t arithmetic: a result outside the range is undefined behaviour. *)
Definition chk64 (z : Z) : res Z :=
  if ((- 2 ^ 63 <=? z) && (z <? 2 ^ 63))%Z then Ok z else Fail EOverflow.

Notation "'let?' x ':=' p 'in' k" := (rbind p (fun x => k))
  (at level 200, x binder, p at level 100, k at level 200, right associativity).
