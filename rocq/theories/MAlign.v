(** Models of the two pointer-alignment helpers:
    /repo/src/aligned_allocator.hpp:7-32 (aligned_allocator) and
    /repo/otherExperiments/benchmark.cpp:10-18 (align).

    Addresses and sizes are integers; size_t arithmetic is taken modulo 2^64
    (Base.u64).  Where storage lands is decided by the environment. *)
From Verif Require Import Base.
Local Open Scope Z_scope.

(** * aligned_allocator *)

(** [new char[size]]: the address chosen by the environment, [None] when it
    throws std::bad_alloc. *)
Definition new_char := Z -> option Z.

(** The members data and p of aligned_allocator (aligned_allocator.hpp:8-9);
    a non-null data remembers the size of the buffer as well, so that
    ownership can be stated. *)
Record allocator := Allocator { a_data : option (Z * Z); a_p : Z }.
(** aligned_allocator.hpp:10 *)
Definition fresh_allocator : allocator := Allocator None 0.

Definition is_pow2 (a : Z) : bool := (0 <? a) && (a =? 2 ^ Z.log2 a).

(** std::align(alignment, size, ptr, space) of the standard library: a
    non-power-of-two alignment violates the precondition (UB); the pointer is
    moved up to the next multiple of the alignment; null if [size] bytes do not
    fit behind it. *)
Definition std_align (alignment size ptr space : Z) : res (option Z) :=
  if is_pow2 alignment then
    let padding := (- ptr) mod alignment in
    Ok (if size + padding <=? space then Some (ptr + padding) else None)
  else Fail EMisaligned.

(** aligned_allocator::alloc<T>(size, alignment), aligned_allocator.hpp:18-31,
    with sizeofT = sizeof(T).  [throw;] without an exception being handled
    calls std::terminate; alloc is assumed not to be called inside a catch
    handler. *)
Definition alloc (env : new_char) (sizeofT size alignment : Z) (s : allocator) : res (Z * allocator) :=
  match a_data s with
  | Some _ => Fail ETerminate                                    (* 20-22 *)
  | None =>
      let size_bytes := u64 (u64 (sizeofT * size) + alignment) in (* 23 *)
      match env size_bytes with                                   (* 24 *)
      | None => Fail EException
      | Some data =>
          let? p := std_align alignment sizeofT data size_bytes in  (* 25-26 *)
          match p with
          | None => Fail ETerminate                               (* 27-29 *)
          | Some p => Ok (p, Allocator (Some (data, size_bytes)) p) (* 30 *)
          end
      end
  end.

(** ~aligned_allocator(), aligned_allocator.hpp:12-16: the buffer released. *)
Definition released (s : allocator) : option (Z * Z) := a_data s.

(** * align of the benchmark *)

(** align(alignment, size, ptr, space), benchmark.cpp:10-18.  [None] is
    nullptr.  The reference parameter ptr is set to the value returned
    (line 17) and left alone otherwise; [space] is a by-value parameter, so
    line 16 has no effect outside.  That the callers pass a [double *]
    reinterpreted as [void *&] (strict aliasing) is not modelled. *)
Definition bench_align (alignment size ptr space : Z) : option Z :=
  let aligned := Z.land (u64 (ptr + alignment - 1)) (u64 (- alignment)) in (* 13 *)
  let padding := u64 (aligned - ptr) in                                   (* 14 *)
  if space <? u64 (size + padding) then None                               (* 15 *)
  else Some aligned.                                                      (* 17 *)

(** The calls of main, benchmark.cpp:24-39: a buffer of n*n+8 doubles at
    address [base], aligned to 64 bytes; note that [space] counts doubles. *)
Definition bench_buffer (n base : Z) : option Z :=
  bench_align 64 8 base (n * n + 8).
