(** Programs over a shared memory: sequential execution, thread
    interleavings, data races.  This file has definitions only. *)
From Verif Require Export Base.

(** A memory cell is addressed by an array identifier (a path, so that every
    dynamically created vector of a task tree has its own identifier) and an
    index into that array. *)
Definition arr : Type := list nat.
Definition loc : Type := arr * nat.

(** Cells hold an element of the scalar type or a flag ([bool]). *)
Inductive val (T : Type) := VD (t : T) | VF (b : bool).
Arguments VD {T} t.
Arguments VF {T} b.

(** Shared memory: a finite map from cells to values; absent = out of bounds. *)
Notation mem T := (gmap loc (val T)).

Section Conc.
  Context {T : Type}.
  Local Notation mem := (gmap loc (val T)).

  (** Programs.  Reads and writes receive the information whether the cell
      exists, so that [v[i]] (undefined behaviour) and [v.at(i)] (exception)
      can both be expressed.  [Par p q k] runs [p] and [q] concurrently, joins
      them, and continues with [k]. *)
  Inductive prog (A : Type) : Type :=
  | Ret (a : A)
  | Err (e : err)
  | Rd (l : loc) (k : option (val T) -> prog A)
  | Wr (l : loc) (v : val T) (k : bool -> prog A)
  | Alloc (l : loc) (v : val T) (k : prog A)
  | Par (p q : prog unit) (k : prog A).
  Arguments Ret {A} a.
  Arguments Err {A} e.
  Arguments Rd {A} l k.
  Arguments Wr {A} l v k.
  Arguments Alloc {A} l v k.
  Arguments Par {A} p q k.

  Fixpoint pbind {A B} (f : A -> prog B) (p : prog A) : prog B :=
    match p with
    | Ret a => f a
    | Err e => Err e
    | Rd l k => Rd l (fun v => pbind f (k v))
    | Wr l v k => Wr l v (fun b => pbind f (k b))
    | Alloc l v k => Alloc l v (pbind f k)
    | Par p q k => Par p q (pbind f k)
    end.

  (** try { p } catch (E) { h }: handler [h] replaces the failure [e]. *)
  Fixpoint pcatch {A} (e : err) (h : prog A) (p : prog A) : prog A :=
    match p with
    | Ret a => Ret a
    | Err e' => if decide (e' = e) then h else Err e'
    | Rd l k => Rd l (fun v => pcatch e h (k v))
    | Wr l v k => Wr l v (fun b => pcatch e h (k b))
    | Alloc l v k => Alloc l v (pcatch e h k)
    | Par p q k => Par p q (pcatch e h k)
    end.

  (** Sequential execution: [Par p q k] runs p, then q, then k. *)
  Fixpoint run {A} (p : prog A) (m : mem) : res (A * mem) :=
    match p with
    | Ret a => Ok (a, m)
    | Err e => Fail e
    | Rd l k => run (k (m !! l)) m
    | Wr l v k =>
        match m !! l with
        | Some _ => run (k true) (<[l := v]> m)
        | None => run (k false) m
        end
    | Alloc l v k => run k (<[l := v]> m)
    | Par p q k =>
        match run p m with
        | Fail e => Fail e
        | Ok (_, m1) =>
            match run q m1 with
            | Fail e => Fail e
            | Ok (_, m2) => run k m2
            end
        end
    end.

  (** One step of one thread: the interleaving semantics. *)
  Inductive step (A : Type) : prog A -> mem -> prog A -> mem -> Prop :=
  | step_rd l k m : step A (Rd l k) m (k (m !! l)) m
  | step_wr l v k m w : m !! l = Some w -> step A (Wr l v k) m (k true) (<[l := v]> m)
  | step_wr_oob l v k m : m !! l = None -> step A (Wr l v k) m (k false) m
  | step_alloc l v k m : step A (Alloc l v k) m k (<[l := v]> m)
  | step_par_l p p' q k m m' : step unit p m p' m' -> step A (Par p q k) m (Par p' q k) m'
  | step_par_r p q q' k m m' : step unit q m q' m' -> step A (Par p q k) m (Par p q' k) m'
  | step_join k m : step A (Par (Ret tt) (Ret tt) k) m k m
  | step_err_l e q k m : step A (Par (Err e) q k) m (Err e) m
  | step_err_r e p k m : step A (Par p (Err e) k) m (Err e) m.

  Inductive steps (A : Type) : prog A -> mem -> prog A -> mem -> Prop :=
  | steps_refl p m : steps A p m p m
  | steps_step p m p1 m1 p2 m2 : step A p m p1 m1 -> steps A p1 m1 p2 m2 -> steps A p m p2 m2.

  (** [head p l w]: some thread of [p] is about to access cell [l]; [w] says
      whether the access writes. *)
  Fixpoint head {A} (p : prog A) (l : loc) (w : bool) : Prop :=
    match p with
    | Ret _ | Err _ => False
    | Rd l' _ => l = l' /\ w = false
    | Wr l' _ _ => l = l' /\ w = true
    | Alloc l' _ _ => l = l' /\ w = true
    | Par p q _ => head p l w \/ head q l w
    end.

  (** [races p l]: two threads of [p] are about to access [l], one writing. *)
  Fixpoint races {A} (p : prog A) (l : loc) : Prop :=
    match p with
    | Par p q _ =>
        (exists w1 w2, head p l w1 /\ head q l w2 /\ (w1 || w2) = true)
        \/ races p l \/ races q l
    | _ => False
    end.

  (** Total correctness over all schedules: every schedule terminates, no
      schedule fails, no data race except on cells in [tol], and the returned
      value and final memory satisfy [Q]. *)
  Inductive must (tol : loc -> Prop) {A} (Q : A -> mem -> Prop) : prog A -> mem -> Prop :=
  | must_ret a m : Q a m -> must tol Q (Ret a) m
  | must_step p m :
      (forall l, races p l -> tol l) ->
      (exists p' m', step A p m p' m') ->
      (forall p' m', step A p m p' m' -> must tol Q p' m') ->
      must tol Q p m.

  (** Every schedule terminates in a failure from [E]. *)
  Inductive must_fail (E : err -> Prop) {A} : prog A -> mem -> Prop :=
  | mf_err e m : E e -> must_fail E (Err e) m
  | mf_step p m :
      (exists p' m', step A p m p' m') ->
      (forall p' m', step A p m p' m' -> must_fail E p' m') ->
      must_fail E p m.

  (** Some schedule ends in the failure [e]. *)
  Definition may_fail {A} (p : prog A) (m : mem) (e : err) : Prop :=
    exists m', steps A p m (Err e) m'.

  (** Some schedule reaches a data race on [l]. *)
  Definition may_race {A} (p : prog A) (m : mem) (l : loc) : Prop :=
    exists p' m', steps A p m p' m' /\ races p' l.

  (** The two notions used in property statements. *)
  Definition always {A} (p : prog A) (Q : A -> Prop) : Prop :=
    must (fun _ => False) (fun a _ => Q a) p ∅.
  Definition always_tol {A} (tol : loc -> Prop) (p : prog A) (Q : A -> Prop) : Prop :=
    must tol (fun a _ => Q a) p ∅.

  (** Every schedule started in the empty memory ends in undefined behaviour. *)
  Definition always_ub {A} (p : prog A) : Prop := must_fail (fun e => is_ub e = true) p ∅.
  (** Some schedule returns [a]. *)
  Definition may_return {A} (p : prog A) (a : A) : Prop := exists m', steps A p ∅ (Ret a) m'.

  (** All failures occurring in [p] are in [E]. *)
  Fixpoint err_in {A} (E : err -> Prop) (p : prog A) : Prop :=
    match p with
    | Ret _ => True
    | Err e => E e
    | Rd l k => forall v, err_in E (k v)
    | Wr l v k => forall b, err_in E (k b)
    | Alloc l v k => err_in E k
    | Par p q k => err_in E p /\ err_in E q /\ err_in E k
    end.

  (** Footprints: all reads of [p] are in R or W, all writes in W. *)
  Fixpoint acc_in {A} (R W : loc -> Prop) (p : prog A) : Prop :=
    match p with
    | Ret _ | Err _ => True
    | Rd l k => (R l \/ W l) /\ (forall v, acc_in R W (k v))
    | Wr l v k => W l /\ (forall b, acc_in R W (k b))
    | Alloc l v k => W l /\ acc_in R W k
    | Par p q k => acc_in R W p /\ acc_in R W q /\ acc_in R W k
    end.

  (** Parallel branches have non-conflicting footprints. *)
  Fixpoint drf {A} (p : prog A) : Prop :=
    match p with
    | Ret _ | Err _ => True
    | Rd l k => forall v, drf (k v)
    | Wr l v k => forall b, drf (k b)
    | Alloc l v k => drf k
    | Par p q k =>
        (exists Rp Wp Rq Wq,
            acc_in Rp Wp p /\ acc_in Rq Wq q /\
            (forall l, Wp l -> Rq l \/ Wq l -> False) /\
            (forall l, Wq l -> Rp l \/ Wp l -> False))
        /\ drf p /\ drf q /\ drf k
    end.

  (** ---- Statements used by the models ---- *)

  (** Loop with a loop-carried state over an explicit index list. *)
  Fixpoint foldP {S X} (l : list X) (f : X -> S -> prog S) (s : S) : prog S :=
    match l with
    | [] => Ret s
    | i :: l' => pbind (fun s' => foldP l' f s') (f i s)
    end.

  (** [for (i = lo; i < hi; i += st) s = f(i, s)].  With [st = 0] and [lo < hi] the
      loop never ends (after executing its body for [i = lo]). *)
  Definition forS {S} (lo hi st : nat) (f : nat -> S -> prog S) (s : S) : prog S :=
    if (lo <? hi) && (st =? 0)
    then pbind (fun _ => Err EDiverge) (f lo s)
    else foldP (rng lo hi st) f s.

  Definition forP (lo hi st : nat) (body : nat -> prog unit) : prog unit :=
    forS lo hi st (fun i _ => body i) tt.

  (** Parallel loop: one task per element, any interleaving, join at the end. *)
  Fixpoint parL {X} (l : list X) (body : X -> prog unit) : prog unit :=
    match l with
    | [] => Ret tt
    | i :: l' => Par (body i) (parL l' body) (Ret tt)
    end.

  (** Local (unshared) or read-only vectors are plain lists. *)
  Definition vget (v : list T) (i : nat) : prog T :=          (* v[i] *)
    match v !! i with Some x => Ret x | None => Err EOob end.
  Definition vat (v : list T) (i : nat) : prog T :=           (* v.at(i) *)
    match v !! i with Some x => Ret x | None => Err EOutOfRange end.
  Definition vset (v : list T) (i : nat) (x : T) : prog (list T) :=   (* v[i] = x *)
    if i <? length v then Ret (<[i := x]> v) else Err EOob.
  Definition vset_at (v : list T) (i : nat) (x : T) : prog (list T) := (* v.at(i) = x *)
    if i <? length v then Ret (<[i := x]> v) else Err EOutOfRange.

  (** Shared vectors live in the memory. *)
  Definition rd (a : arr) (i : nat) : prog T :=                (* a[i] *)
    Rd (a, i) (fun o => match o with
                        | Some (VD t) => Ret t
                        | Some (VF _) => Err EType
                        | None => Err EOob end).
  Definition rd_at (a : arr) (i : nat) : prog T :=             (* a.at(i) *)
    Rd (a, i) (fun o => match o with
                        | Some (VD t) => Ret t
                        | Some (VF _) => Err EType
                        | None => Err EOutOfRange end).
  Definition wr (a : arr) (i : nat) (x : T) : prog unit :=     (* a[i] = x *)
    Wr (a, i) (VD x) (fun b : bool => if b then Ret tt else Err EOob).
  Definition wr_at (a : arr) (i : nat) (x : T) : prog unit :=  (* a.at(i) = x *)
    Wr (a, i) (VD x) (fun b : bool => if b then Ret tt else Err EOutOfRange).

  (** [std::vector<T> a(n, x)] for a vector that is going to be shared. *)
  Definition valloc (a : arr) (n : nat) (x : T) : prog unit :=
    foldP (seq 0 n) (fun i _ => Alloc (a, i) (VD x) (Ret tt)) tt.
  (** Contents of a shared vector, read after all tasks have been joined. *)
  Definition vread (a : arr) (n : nat) : prog (list T) :=
    foldP (seq 0 n) (fun i acc => pbind (fun x => Ret (acc ++ [x])) (rd a i)) [].
End Conc.

Arguments prog T A : clear implicits.
Arguments Ret {T A} a.
Arguments Err {T A} e.
Arguments Rd {T A} l k.
Arguments Wr {T A} l v k.
Arguments Alloc {T A} l v k.
Arguments Par {T A} p q k.

Notation "'let!' x ':=' p 'in' k" := (pbind (fun x => k) p)
  (at level 200, x binder, p at level 100, k at level 200, right associativity).
Notation "p ';;;' k" := (pbind (fun _ => k) p)
  (at level 100, k at level 200, right associativity).
