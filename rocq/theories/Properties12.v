(** C44 (exception texts), C45 (aligned_allocator), C52 (benchmark buffers). *)
From Verif Require Import Base MExcept PExcept MAlign PAlign.
From Coq Require Import Ascii String.

(** C44.  For every message, in every heap: constructing an exception and
    calling what() succeeds and leaves the exception's own message intact, but
    whatever the program does with its strings afterwards, reading any
    character through the returned pointer is undefined behaviour. *)
Theorem C44_what_dangles c arg message h :
  contents arg h = Ok message ->
  exists e h1 p h2,
    construct c arg h = Ok (e, h1) /\ what e h1 = Ok (p, h2) /\
    contents (e_message e) h2 = Ok message /\
    forall later h3 i, acts later h2 = Ok h3 -> char_at p i h3 = Fail EDangling.
Proof. exact (what_dangles c arg message h). Qed.
Print Assumptions C44_what_dangles.

(** C44.  The text itself is the intended one: inside what(), before the
    temporaries are destroyed, the pointer shows the class prefix followed by
    the message and a NUL (and nothing may be read behind it).  So the defect is only the lifetime. *)
Theorem C44_text_before_destruction e h message :
  contents (e_message e) h = Ok message ->
  let text := (match e_class e with
               | matrix_multiplication_exception => "matrix_multiplication_exception: " ++ message
               | memory_layout_exception => "memory_layout_exception: " ++ message
               end)%string in
  exists t1 t2 h', what_operand e h = Ok (t1, t2, h') /\ contents t2 h' = Ok text /\
    (forall i c, String.get i text = Some c -> char_at t2 i h' = Ok c) /\
    char_at t2 (String.length text) h' = Ok Ascii.zero /\
    (forall i, (String.length text < i)%nat -> char_at t2 i h' = Fail EOob).
Proof.
  intros Hm. destruct (what_operand_text e h message Hm) as (t1 & t2 & h' & E & Ht).
  assert (contents t2 h' = Ok (match e_class e with
               | matrix_multiplication_exception => "matrix_multiplication_exception: " ++ message
               | memory_layout_exception => "memory_layout_exception: " ++ message
               end)%string) as Ht' by (rewrite Ht; by destruct (e_class e)).
  exists t1, t2, h'. split; [exact E|]. split; [exact Ht'|]. exact (text_chars t2 h' _ Ht').
Qed.
Print Assumptions C44_text_before_destruction.

Local Open Scope Z_scope.

(** C45.  The first alloc of n > 0 objects: aligned, inside the buffer, room
    for all n objects, and the allocator owns exactly that buffer. *)
Theorem C45_first_alloc env k sizeofT n base :
  0 <= k -> 0 < sizeofT -> 0 < n -> sizeofT * n + 2 ^ k < 2 ^ 64 ->
  env (sizeofT * n + 2 ^ k) = Some base ->
  exists p s, alloc env sizeofT n (2 ^ k) fresh_allocator = Ok (p, s) /\
    (2 ^ k | p) /\ base <= p /\ p + sizeofT * n <= base + (sizeofT * n + 2 ^ k) /\
    a_p s = p /\ released s = Some (base, sizeofT * n + 2 ^ k).
Proof. intros Hk Hs Hn Hw. exact (alloc_first env k sizeofT n Hk Hs Hn Hw base). Qed.
Print Assumptions C45_first_alloc.

(** C45.  For n = 0 the program terminates exactly when one object does not
    fit behind the padding. *)
Theorem C45_zero_objects env k sizeofT base :
  0 <= k < 64 -> 0 < sizeofT -> env (2 ^ k) = Some base ->
  (2 ^ k < sizeofT + (- base) mod 2 ^ k ->
   alloc env sizeofT 0 (2 ^ k) fresh_allocator = Fail ETerminate) /\
  (sizeofT + (- base) mod 2 ^ k <= 2 ^ k ->
   exists p s, alloc env sizeofT 0 (2 ^ k) fresh_allocator = Ok (p, s) /\ (2 ^ k | p)).
Proof. exact (alloc_zero env k sizeofT base). Qed.
Print Assumptions C45_zero_objects.

(** C45.  A second alloc on the same object terminates the program. *)
Theorem C45_second_alloc env sizeofT n alignment p s env' sizeofT' n' alignment' :
  alloc env sizeofT n alignment fresh_allocator = Ok (p, s) ->
  alloc env' sizeofT' n' alignment' s = Fail ETerminate.
Proof. exact (alloc_second env sizeofT n alignment p s env' sizeofT' n' alignment'). Qed.
Print Assumptions C45_second_alloc.

(** C45.  If the size computation wraps, whatever is returned is too small. *)
Theorem C45_wrapped_size env sizeofT n alignment p s :
  0 < sizeofT -> 0 <= n -> 0 <= alignment < 2 ^ 64 ->
  2 ^ 64 <= sizeofT * n + alignment ->
  alloc env sizeofT n alignment fresh_allocator = Ok (p, s) ->
  exists base size, released s = Some (base, size) /\ base + size < p + sizeofT * n.
Proof. exact (alloc_wrap env sizeofT n alignment p s). Qed.
Print Assumptions C45_wrapped_size.

(** C52.  What the benchmark's align returns: the next multiple of 64, or null
    when n*n is smaller than the padding in bytes ([space] counts doubles). *)
Theorem C52_buffer n base :
  0 <= n -> 0 <= base -> base + 8 * (n * n + 8) <= 2 ^ 64 ->
  bench_buffer n base =
    if n * n <? (- base) mod 64 then None else Some (base + (- base) mod 64).
Proof. exact (bench_buffer_spec n base). Qed.
Print Assumptions C52_buffer.

(** C52.  Every pointer it returns is 64-byte aligned and has room for n*n doubles. *)
Theorem C52_fits n base p :
  0 <= n -> 0 <= base -> base + 8 * (n * n + 8) <= 2 ^ 64 ->
  bench_buffer n base = Some p ->
  (64 | p) /\ base <= p /\ p + 8 * (n * n) <= base + 8 * (n * n + 8).
Proof. exact (bench_buffer_fits n base p). Qed.
Print Assumptions C52_fits.

(** C52.  From n = 8 on (the benchmark uses n = 4096) it never returns null. *)
Theorem C52_never_null n base :
  8 <= n -> 0 <= base -> (8 | base) -> base + 8 * (n * n + 8) <= 2 ^ 64 ->
  exists p, bench_buffer n base = Some p.
Proof. exact (bench_buffer_large n base). Qed.
Print Assumptions C52_never_null.

(** C52.  For every smaller n it returns null although the buffer is large
    enough, if the buffer starts 8 bytes behind a multiple of 64. *)
Theorem C52_small_sizes_refuted n base :
  0 <= n <= 7 -> 0 <= base -> base mod 64 = 8 -> base + 8 * (n * n + 8) <= 2 ^ 64 ->
  bench_buffer n base = None /\
  exists p, (64 | p) /\ base <= p /\ p + 8 * (n * n) <= base + 8 * (n * n + 8).
Proof.
  intros Hn Hb Hm Hw. split; [exact (bench_buffer_small n base Hn Hb Hm Hw)|].
  exists (base + 56). pose proof (Z.div_mod base 64). split; [exists (base / 64 + 1); lia|lia].
Qed.
Print Assumptions C52_small_sizes_refuted.
