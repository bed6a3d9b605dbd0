(** Model of the two exception classes of the project:
    /repo/src/util/matrix_multiplication_exception.hpp:6-16 and
    /repo/src/memory_layout/memory_layout_exception.hpp:6-16.

    Simplifications: the heap is a list of std::string objects that are either
    alive or destroyed; a pointer returned by c_str() is the number of the
    string object it points into, together with an offset.  Numbers of string
    objects are never handed out twice, so a pointer to a destroyed string
    stays dangling even when the allocator reuses the storage (reading it is
    undefined behaviour in C++ in both cases).  std::bad_alloc is not
    modelled. *)
From Verif Require Import Base.
From Coq Require Import Ascii String.

Inductive obj := Live (s : string) | Destroyed.
Notation heap := (list obj).

(** Construction of a std::string object: the C++ language rule. *)
Definition new_string (s : string) (h : heap) : nat * heap :=
  (List.length h, (h ++ [Live s])%list).
(** Destruction of a std::string object (end of a full expression for a
    temporary): the C++ language rule. *)
Definition destroy_string (p : nat) (h : heap) : heap := <[p := Destroyed]> h.
(** The characters of a live std::string. *)
Definition contents (p : nat) (h : heap) : res string :=
  match h !! p with
  | Some (Live s) => Ok s
  | _ => Fail EDangling
  end.
(** Reading character [i] through the pointer that c_str() of string [p]
    returned: the characters, the terminating NUL, and nothing behind it. *)
Definition char_at (p i : nat) (h : heap) : res ascii :=
  let? s := contents p h in
  match String.get i s with
  | Some c => Ok c
  | None => if i =? String.length s then Ok Ascii.zero else Fail EOob
  end.

(** The classes; the text is the literal in what().
    matrix_multiplication_exception.hpp:14, memory_layout_exception.hpp:14. *)
Inductive exn_class := matrix_multiplication_exception | memory_layout_exception.
Definition class_text (c : exn_class) : string :=
  match c with
  | matrix_multiplication_exception => "matrix_multiplication_exception: "
  | memory_layout_exception => "memory_layout_exception: "
  end%string.

(** An exception object: its class and its member [message].
    matrix_multiplication_exception.hpp:8, memory_layout_exception.hpp:8. *)
Record exn := Exn { e_class : exn_class; e_message : nat }.

(** The constructor copies the argument into the member:
    matrix_multiplication_exception.hpp:10-11, memory_layout_exception.hpp:10-11. *)
Definition construct (c : exn_class) (arg : nat) (h : heap) : res (exn * heap) :=
  let? s := contents arg h in
  let '(p, h) := new_string s h in
  Ok (Exn c p, h).

(** what(), up to the evaluation of the operand of [return]: the temporary
    std::string(literal), the temporary holding the concatenation, and c_str()
    of the latter.  Result: the two temporaries (the pointer returned is the
    second one).  matrix_multiplication_exception.hpp:14,
    memory_layout_exception.hpp:14. *)
Definition what_operand (e : exn) (h : heap) : res (nat * nat * heap) :=
  let '(t1, h) := new_string (class_text (e_class e)) h in
  let? prefix := contents t1 h in
  let? msg := contents (e_message e) h in
  let '(t2, h) := new_string (prefix ++ msg)%string h in
  Ok (t1, t2, h).

(** what(): at the end of the full expression the temporaries are destroyed in
    reverse order of construction, then the pointer is returned.
    matrix_multiplication_exception.hpp:13-15, memory_layout_exception.hpp:13-15. *)
Definition what (e : exn) (h : heap) : res (nat * heap) :=
  let? r := what_operand e h in
  let '(t1, t2, h) := r in
  Ok (t2, destroy_string t1 (destroy_string t2 h)).

(** What a program may do with strings afterwards: construct new ones, destroy
    live ones, assign to live ones (language rules). *)
Inductive heap_action := ANew (s : string) | ADestroy (p : nat) | AAssign (p : nat) (s : string).
Definition act (a : heap_action) (h : heap) : res heap :=
  match a with
  | ANew s => Ok (new_string s h).2
  | ADestroy p => let? _ := contents p h in Ok (destroy_string p h)
  | AAssign p s => let? _ := contents p h in Ok (<[p := Live s]> h)
  end.
Fixpoint acts (l : list heap_action) (h : heap) : res heap :=
  match l with
  | [] => Ok h
  | a :: l => let? h := act a h in acts l h
  end.
