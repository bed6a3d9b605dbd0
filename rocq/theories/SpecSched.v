(** Specification of work schedules, independent of how they are computed.  Only
    the record [work] of the model is used. *)
From Verif Require Export MSchedule.
Local Open Scope Z_scope.

(** Package [w] contains matrix entry (i,j). *)
Definition has (w : work) (i j : Z) : Prop :=
  wx w <= i < wx w + wN w /\ wy w <= j < wy w + wN w.
Global Instance has_dec w i j : Decision (has w i j).
Proof. unfold has. apply _. Defined.

(** Number of packages that contain entry (i,j). *)
Definition hits (i j : Z) (ws : list work) : nat := length (filter (fun w => has w i j) ws).

(** The package is a square inside the N x N matrix. *)
Definition inside (N : Z) (w : work) : Prop :=
  0 <= wx w /\ 0 <= wy w /\ 0 <= wN w /\ wx w + wN w <= N /\ wy w + wN w <= N.

(** Number of entries of a list of packages. *)
Definition area (ws : list work) : Z := foldr (fun w a => wN w * wN w + a) 0 ws.
Definition sumZ (l : list Z) : Z := foldr Z.add 0 l.

(** Sizes that arise by halving while the size exceeds the minimal work size. *)
Definition size_of (N min_work_size n : Z) : Prop :=
  exists k, 0 <= k /\ n = N / 2 ^ k /\ (k = 0 \/ min_work_size < N / 2 ^ (k - 1)).

(** Every such size that exceeds the minimal work size is even. *)
Definition even_chain (N min_work_size : Z) : Prop :=
  forall n, size_of N min_work_size n -> min_work_size < n -> (2 | n).

(** Largest and smallest recorded work. *)
Definition is_max (t : Z) (l : list Z) : Prop := t ∈ l /\ forall t', t' ∈ l -> t' <= t.
Definition is_min (t : Z) (l : list Z) : Prop := t ∈ l /\ forall t', t' ∈ l -> t <= t'.

(** The balance requested by the user is reached. *)
Definition balanced (max_work_difference : Z) (rel : Z -> Z -> bool) (total : list Z) : Prop :=
  exists mn mx, is_min mn total /\ is_max mx total /\
    (mx - mn < max_work_difference \/ (0 < mn /\ rel (mx - mn) mn = true)).

(** Splitting package [w] between localities with work [mx] and [mn]: half of
    its entries move. *)
Definition diff_after (mx mn : Z) (w : work) : Z :=
  Z.abs ((mx - wN w * wN w / 2) - (mn + wN w * wN w / 2)).

(** No most-loaded locality has a package larger than the minimal size whose
    split would keep the difference to the least-loaded locality from growing. *)
Definition stuck (min_work_size : Z) (s : sched) : Prop :=
  exists mn mx, is_min mn (total_work s) /\ is_max mx (total_work s) /\
    forall i ws w, total_work s !! i = Some mx -> all_work s !! i = Some ws -> w ∈ ws ->
      min_work_size < wN w -> mx - mn < diff_after mx mn w.
