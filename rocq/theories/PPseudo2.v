(** pseudodynamic in any arithmetic and with any mixture of package sizes: every
    entry is summed in the order of the package that covers it. *)
From Verif Require Import Base Conc ConcFacts Num Spec SpecSched MSchedule Tools PSchedule PPseudo.

Lemma finite_choice {X} (x0 : X) n (Q : nat -> X -> Prop) : (forall k, k < n -> exists x, Q k x) ->
  exists g, forall k, k < n -> Q k (g k).
Proof.
  induction n as [|n IH]; intros Hx; [exists (fun _ => x0); lia|].
  destruct IH as [g Hg]; [intros; apply Hx; lia|]. destruct (Hx n ltac:(lia)) as [x Hn].
  exists (fun k => if decide (k = n) then x else g k). intros k Hk. destruct (decide (k = n)) as [->|]; [done|]. apply Hg. lia.
Qed.
Lemma matrix_choice {X} (x0 : X) N (Q : nat -> nat -> X -> Prop) : (forall i j, i < N -> j < N -> exists x, Q i j x) ->
  exists f, forall i j, i < N -> j < N -> Q i j (f i j).
Proof.
  intros Hx. destruct (finite_choice (fun _ => x0) N (fun i g => forall j, j < N -> Q i j (g j))) as [f Hf].
  { intros i Hi. apply (finite_choice x0). intros j Hj. by apply Hx. }
  exists f. intros i j Hi Hj. by apply Hf.
Qed.
Lemma leaf_size_unique br n ms d ms' d' : n = ms * 2 ^ d -> n = ms' * 2 ^ d' -> ms <= br -> ms' <= br ->
  (d = 0 \/ br < 2 * ms) -> (d' = 0 \/ br < 2 * ms') -> ms = ms'.
Proof.
  assert (He : forall ms d ms' d', ms * 2 ^ d = ms' * 2 ^ d' -> ms <= br -> (d' = 0 \/ br < 2 * ms') -> d < d' -> ms = ms').
  { clear. intros ms d ms' d' He Hle Hd Hlt. destruct Hd as [?|Hd]; [lia|]. exfalso.
    replace d' with (d + (d' - d)) in He by lia. rewrite Nat.pow_add_r in He.
    assert (2 ^ d <> 0) by (apply Nat.pow_nonzero; lia).
    assert (Hms : ms = ms' * 2 ^ (d' - d)).
    { apply (Nat.mul_cancel_r _ _ (2 ^ d)); [done|]. lia. }
    assert (2 ^ 1 <= 2 ^ (d' - d)) by (apply Nat.pow_le_mono_r; lia). cbn in *. nia. }
  intros H1 H2 H3 H4 H5 H6. destruct (decide (d = d')) as [->|Hne].
  - apply (Nat.mul_cancel_r _ _ (2 ^ d')); [apply Nat.pow_nonzero; lia|lia].
  - destruct (decide (d < d')) as [Hlt|Hge].
    + apply (He ms d ms' d'); [lia|done..].
    + symmetry. apply (He ms' d' ms d); [lia|done|done|lia].
Qed.

Section Any.
  Context {T : Type} `{NumOps T}.
  Context (N : nat) (A B : list T) (transposed : bool) (bi br : nat).
  Context (mws maxd : Z) (rel : Z -> Z -> bool) (G reps : nat).
  Local Notation ps := (pseudodynamic_matrix_multiply N A B transposed br bi mws maxd rel G reps).

  Lemma ps_any : (Z.of_nat N * Z.of_nat N < 2 ^ 62)%Z -> (0 <= mws)%Z -> 0 < G -> 0 < reps ->
    length A = N * N -> length B = N * N ->
    even_chain (Z.of_nat N) mws ->
    (forall n, size_of (Z.of_nat N) mws n -> rec_ok transposed bi br N (Z.to_nat n)) ->
    exists f, always ps (is_matrix N f) /\
      forall i j, i < N -> j < N -> exists ms, leaf_ok transposed bi ms N /\ f i j = leaf_entry transposed bi ms N A B i j.
  Proof.
    intros HN Hm HG Hreps HA HB Hev Hsz. destruct (ps_schedule N A B transposed bi br mws maxd rel G reps HN Hm HG) as (L&s&_&_&_&Hr&Hi&->).
    destruct (reach_even (Z.of_nat N) mws maxd rel ltac:(lia) HN Hm _ _ Hev Hr) as [Hh _].
    set (ws := concat (all_work s)) in *.
    assert (Hrec : forall w, w ∈ ws -> rec_ok transposed bi br N (Z.to_nat (wN w))).
    { intros w Hw. apply Hsz. by apply (inv_size _ _ _ Hi). }
    destruct (matrix_choice (nzero : T) N (fun i j x =>
      (exists ms, leaf_ok transposed bi ms N /\ x = leaf_entry transposed bi ms N A B i j) /\
      forall w, w ∈ ws -> has w (Z.of_nat i) (Z.of_nat j) -> exists ms d,
        Z.to_nat (wN w) = ms * 2 ^ d /\ ms <= br /\ (d = 0 \/ br < 2 * ms) /\ leaf_ok transposed bi ms N /\
        leaf_entry transposed bi ms N A B i j = x)) as [f Hf].
    { intros i j Hi' Hj. destruct (hits_pos (Z.of_nat i) (Z.of_nat j) ws) as (k&w&Hk&Hw).
      { rewrite Hh, decide_True by lia. lia. }
      destruct (Hrec w) as (ms&d&H1&H2&H3&H4); [by eapply elem_of_list_lookup_2|].
      exists (leaf_entry transposed bi ms N A B i j). split; [by exists ms|].
      intros w' [k' Hk']%elem_of_list_lookup Hw'.
      assert (w' = w) as ->; [|by exists ms, d]. destruct (decide (k' = k)) as [->|Hne]; [congruence|].
      pose proof (hits_two _ _ _ _ _ _ _ Hk' Hk Hne Hw' Hw) as H2'. pose proof (inv_hits _ _ _ Hi (Z.of_nat i) (Z.of_nat j)). unfold ws in H2'. lia. }
    exists f. split; [|intros i j Hi' Hj; by apply Hf].
    destruct (body_run N A B transposed bi br f HA HB ws reps) as (C&m&HC&Hm').
    - apply (inv_in _ _ _ Hi).
    - apply (inv_hits _ _ _ Hi).
    - apply Forall_forall. intros w Hw. destruct (Hrec w Hw) as (ms&d&H1&H2&H3&H4). exists ms, d. split_and!; try done.
      intros i j Hi' Hj Hhas. destruct (Hf i j Hi' Hj) as [_ Hall]. destruct (Hall w Hw Hhas) as (ms'&d'&H1'&H2'&H3'&H4'&H5').
      by rewrite (leaf_size_unique br _ ms d ms' d' H1 H1' H2 H2' H3 H3').
    - intros i j Hi' Hj. rewrite Hh, decide_True by lia. lia.
    - eapply always_intro; [|exact HC|].
      + apply body_drf; [apply (inv_in _ _ _ Hi)|apply (inv_hits _ _ _ Hi)].
      + rewrite decide_False in Hm' by lia. exact Hm'.
  Qed.
End Any.
