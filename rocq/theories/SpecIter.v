(** Specifications for the iteration library, independent of its model. *)
From Verif Require Export Base.

(** [p] is a point of the grid with origin [mn], upper bound [mx] (exclusive)
    and step [st] in every dimension. *)
Definition grid_pt (mn mx st p : list nat) : Prop :=
  length p = length mn /\
  forall d, d < length mn -> exists m x s q,
    mn !! d = Some m /\ mx !! d = Some x /\ st !! d = Some s /\ p !! d = Some (m + q * s) /\ m + q * s < x.

(** [l] lists the points of that grid, each exactly once. *)
Definition lists_grid (mn mx st : list nat) (l : list (list nat)) : Prop :=
  NoDup l /\ forall p, p ∈ l <-> grid_pt mn mx st p.

(** Lexicographic order on index vectors (last dimension fastest). *)
Fixpoint lex_lt (p q : list nat) : Prop :=
  match p, q with
  | a :: p, b :: q => a < b \/ (a = b /\ lex_lt p q)
  | _, _ => False
  end.

(** Number of grid points per dimension, and their product. *)
Definition counts (mn mx st : list nat) : list nat :=
  (fun t : nat * nat * nat => cdiv (t.1.2 - t.1.1) t.2) <$> zip (zip mn mx) st.
Definition prodl (l : list nat) : nat := foldr Nat.mul 1 l.

(** Position number [k] of the enumeration with dimension 0 fastest:
    mixed-radix digits of [k]. *)
Fixpoint digits (cs : list nat) (k : nat) : list nat :=
  match cs with [] => [] | c :: cs => (k mod c) :: digits cs (k / c) end.

(** min + digit * step, pointwise *)
Definition at_digits (mn st ds : list nat) : list nat :=
  (fun t : nat * nat * nat => t.1.1 + t.2 * t.1.2) <$> zip (zip mn st) ds.

(** Sizes are equal and all entries of [b] are positive. *)
Definition positive (b : list nat) : Prop := Forall (fun x => 0 < x) b.
(** Pointwise divisibility. *)
Definition divides_all (b e : list nat) : Prop := Forall2 (fun x y => (x | y)) b e.
(** mn + ext, mx - mn pointwise *)
Definition vadd2 (u v : list nat) : list nat := zip_with Nat.add u v.
Definition extent (mn mx : list nat) : list nat := zip_with Nat.sub mx mn.
(** extents rounded up to multiples of the block *)
Definition round_up (ext b : list nat) : list nat := zip_with (fun e b => cdiv e b * b) ext b.

(** A stack of blockings (outermost first): sizes fit, blocks are positive and
    each block is a multiple of the next one. *)
Fixpoint nested (dim : nat) (conf : list (list nat * list bool)) : Prop :=
  match conf with
  | [] => False
  | (b, pd) :: conf' =>
      length b = dim /\ length pd = dim /\ positive b /\
      match conf' with
      | [] => True
      | (b', _) :: _ => divides_all b' b /\ nested dim conf'
      end
  end.
(** The innermost step. *)
Definition final_step (conf : list (list nat * list bool)) : list nat :=
  match last conf with Some (b, _) => b | None => [] end.
(** Dimensions that are parallel in some blocking except the innermost one. *)
Fixpoint par_dims (dim : nat) (conf : list (list nat * list bool)) : list bool :=
  match conf with
  | [] => replicate dim false
  | [_] => replicate dim false
  | (_, pd) :: conf' => zip_with orb pd (par_dims dim conf')
  end.
(** Coordinates of [p] in the dimensions flagged by [pd]. *)
Fixpoint coords (pd : list bool) (p : list nat) : list nat :=
  match pd, p with
  | b :: pd, x :: p => if b then x :: coords pd p else coords pd p
  | _, _ => []
  end.

(** One cell per combination of parallel coordinates; the callback appends its
    argument to the cell of its coordinates.  [call_log keys pd it] allocates the
    cells of [keys], runs [it callback] and returns the logs. *)
From Verif Require Import Conc.
Definition log_call (pd : list bool) (p : list nat) : prog (list (list nat)) unit :=
  let! l := rd (coords pd p) 0 in wr (coords pd p) 0 (l ++ [p]).
Definition call_log (keys : list (list nat)) (pd : list bool)
    (it : (list nat -> prog (list (list nat)) unit) -> prog (list (list nat)) unit)
    : prog (list (list nat)) (list (list (list nat))) :=
  foldP keys (fun k _ => Alloc (k, 0) (VD []) (Ret tt)) tt ;;;
  it (log_call pd) ;;;
  foldP keys (fun k acc => let! l := rd k 0 in Ret (acc ++ [l])) [].

(** Calls that differ in a flagged coordinate touch different cells. *)
Definition independent {T} (pd : list bool) (pts : list (list nat)) (f : list nat -> prog T unit) : Prop :=
  exists R W : list nat -> loc -> Prop,
    (forall p, p ∈ pts -> acc_in (R p) (W p) (f p)) /\
    (forall p q l, p ∈ pts -> q ∈ pts -> coords pd p <> coords pd q -> W p l -> R q l \/ W q l -> False).
