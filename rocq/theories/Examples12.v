(** Concrete cases for Properties12. *)
From Verif Require Import Base MExcept PExcept MAlign PAlign Properties12.
From Coq Require Import Ascii String.

(** C44: some message, in a heap with one other string. *)
Definition heap1 : heap := [Live "x"; Live "stencil not supported"]%string.
Example ex_C44 := C44_what_dangles matrix_multiplication_exception 1 _ heap1 eq_refl.
Example ex_C44_text := C44_text_before_destruction (Exn memory_layout_exception 1) heap1 _ eq_refl.
(** Later actions that succeed, and the read that fails. *)
Example ex_C44_run : exists h2 h3, what (Exn memory_layout_exception 1) heap1 = Ok (3, h2) /\
  acts [ANew "memory_layout_exception: stencil not supported"; ADestroy 0; AAssign 1 "y"]%string h2 = Ok h3 /\
  char_at 3 0 h3 = Fail EDangling /\ char_at 4 0 h3 = Ok "m"%char /\ char_at 4 46 h3 = Ok Ascii.zero /\ char_at 4 47 h3 = Fail EOob.
Proof. eexists _, _. repeat split; reflexivity. Qed.

Local Open Scope Z_scope.
(** C45: a buffer at an unaligned address, sizeof(T) = 8, 64-byte alignment. *)
Definition env1 : new_char := fun _ => Some 4104.
Example ex_C45_first := C45_first_alloc env1 6 8 100 4104 ltac:(lia) ltac:(lia) ltac:(lia) ltac:(lia) eq_refl.
Example ex_C45_first_run : alloc env1 8 100 64 fresh_allocator = Ok (4160, Allocator (Some (4104, 864)) 4160).
Proof. reflexivity. Qed.
Example ex_C45_second := C45_second_alloc env1 8 100 64 _ _ env1 4 1 16 ex_C45_first_run.
Example ex_C45_zero_fits := proj2 (C45_zero_objects env1 6 8 4104 ltac:(lia) ltac:(lia) eq_refl) ltac:(vm_compute; congruence).
Example ex_C45_zero_terminates :=
  proj1 (C45_zero_objects (fun _ => Some 4097) 6 8 4097 ltac:(lia) ltac:(lia) eq_refl) ltac:(vm_compute; congruence).
(** 2^61 doubles: the size wraps to 64 bytes and one double "fits". *)
Example ex_C45_wrap_run : alloc env1 8 (2 ^ 61) 64 fresh_allocator = Ok (4160, Allocator (Some (4104, 64)) 4160).
Proof. reflexivity. Qed.
Example ex_C45_wrap := C45_wrapped_size env1 8 (2 ^ 61) 64 _ _ ltac:(lia) ltac:(lia) ltac:(lia) ltac:(lia) ex_C45_wrap_run.

(** C52: the shipped size, and 4x4 with a 16-byte aligned buffer. *)
Example ex_C52_run : bench_buffer 4096 1048592 = Some 1048640.
Proof. reflexivity. Qed.
Example ex_C52_fits := C52_fits 4096 1048592 _ ltac:(lia) ltac:(lia) ltac:(lia) ex_C52_run.
Example ex_C52_never_null := C52_never_null 4096 1048592 ltac:(lia) ltac:(lia) ltac:(by exists 131074) ltac:(lia).
Example ex_C52_buffer := C52_buffer 4 1048592 ltac:(lia) ltac:(lia) ltac:(lia).
Example ex_C52_null : bench_buffer 4 1048592 = None.
Proof. reflexivity. Qed.
Example ex_C52_small := C52_small_sizes_refuted 7 1048584 ltac:(lia) ltac:(lia) eq_refl ltac:(lia).
