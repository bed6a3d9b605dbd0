(** The summation order of every suitable variant does not depend on the numbers,
    not even on their type. *)
From Verif Require Import Conc ConcFacts Spec SpecTiled SpecSched SpecApp Tools MSchedule PSchedule PNaive PUtil PRecursive PPseudo PPseudo2 PAlgorithms PSemi PLooped.
From Verif Require Import Tools2 PTiled PTiled5 MKTest PKTest PKTest2 PProposal PApp PApp2 SpecContract SpecRound SpecCount MApp.
Local Open Scope nat_scope.

Section Pseudo.
  Context (N : nat) (transposed : bool) (bi br : nat).
  Context (mws maxd : Z) (rel : Z -> Z -> bool) (G reps : nat).
  Lemma ps_order : (Z.of_nat N * Z.of_nat N < 2 ^ 62)%Z -> (0 <= mws)%Z -> 0 < G -> 0 < reps ->
    even_chain (Z.of_nat N) mws ->
    (forall n, size_of (Z.of_nat N) mws n -> rec_ok transposed bi br N (Z.to_nat n)) ->
    exists msf : nat -> nat -> nat, (forall i j, i < N -> j < N -> leaf_ok transposed bi (msf i j) N) /\
      forall (T : Type) (ops : NumOps T) (A B : list T), length A = N * N -> length B = N * N ->
        always (pseudodynamic_matrix_multiply N A B transposed br bi mws maxd rel G reps)
          (is_matrix N (fun i j => leaf_entry transposed bi (msf i j) N A B i j)).
  Proof.
    intros HN Hm HG Hreps Hev Hsz.
    destruct (ps_schedule N ([] : list Z) [] transposed bi br mws maxd rel G reps HN Hm HG) as (L&s&HL&_&Hs&Hr&Hi&_).
    destruct (reach_even (Z.of_nat N) mws maxd rel ltac:(lia) HN Hm _ _ Hev Hr) as [Hh _].
    set (ws := concat (all_work s)) in *.
    assert (Hrec : forall w, w ∈ ws -> rec_ok transposed bi br N (Z.to_nat (wN w))).
    { intros w Hw. apply Hsz. by apply (inv_size _ _ _ Hi). }
    destruct (matrix_choice 0 N (fun i j ms => leaf_ok transposed bi ms N /\
      forall w, w ∈ ws -> has w (Z.of_nat i) (Z.of_nat j) -> exists d,
        Z.to_nat (wN w) = ms * 2 ^ d /\ ms <= br /\ (d = 0 \/ br < 2 * ms))) as [msf Hf].
    { intros i j Hi' Hj. destruct (hits_pos (Z.of_nat i) (Z.of_nat j) ws) as (k&w&Hk&Hw).
      { rewrite Hh, decide_True by lia. lia. }
      destruct (Hrec w) as (ms&d&H1&H2&H3&H4); [by eapply elem_of_list_lookup_2|].
      exists ms. split; [done|]. intros w' [k' Hk']%elem_of_list_lookup Hw'.
      assert (w' = w) as ->; [|by exists d]. destruct (decide (k' = k)) as [->|Hne]; [congruence|].
      pose proof (hits_two _ _ _ _ _ _ _ Hk' Hk Hne Hw' Hw) as H2'. pose proof (inv_hits _ _ _ Hi (Z.of_nat i) (Z.of_nat j)). unfold ws in H2'. lia. }
    exists msf. split; [intros i j Hi' Hj; by apply Hf|]. intros T ops A B HA HB.
    destruct (ps_schedule N A B transposed bi br mws maxd rel G reps HN Hm HG) as (L'&s'&HL'&_&Hs'&_&_&->).
    subst L L'. rewrite Hs in Hs'. injection Hs' as <-. fold ws.
    destruct (body_run N A B transposed bi br (fun i j => leaf_entry transposed bi (msf i j) N A B i j) HA HB ws reps) as (C&m&HC&Hm').
    - apply (inv_in _ _ _ Hi).
    - apply (inv_hits _ _ _ Hi).
    - apply Forall_forall. intros w Hw. destruct (Hrec w Hw) as (ms&d&H1&H2&H3&H4). exists ms, d. split_and!; try done.
      intros i j Hi' Hj Hhas. destruct (Hf i j Hi' Hj) as [_ Hall]. destruct (Hall w Hw Hhas) as (d'&H1'&H2'&H3').
      by rewrite (leaf_size_unique br _ ms d (msf i j) d' H1 H1' H2 H2' H3 H3').
    - intros i j Hi' Hj. rewrite Hh, decide_True by lia. lia.
    - eapply always_intro; [|exact HC|].
      + apply body_drf; [apply (inv_in _ _ _ Hi)|apply (inv_hits _ _ _ Hi)].
      + rewrite decide_False in Hm' by lia. exact Hm'.
  Qed.
End Pseudo.

(** The order of one leaf of the recursion *)
Definition leaf_order (tr : bool) (bi bs : nat) : summation :=
  if tr then if (bi =? 0) || (bs <? 4) then Straight else Chunks bi else Straight.
Lemma leaf_order_ok tr bi bs N : leaf_ok tr bi bs N -> order_ok N tr (leaf_order tr bi bs).
Proof.
  intros Hl. unfold leaf_order. destruct tr; [|done]. destruct (Nat.eqb_spec bi 0) as [->|Hbi]; [done|]. cbn [orb].
  destruct (Nat.ltb_spec bs 4) as [Hbs|Hbs]; [done|]. destruct (Hl eq_refl ltac:(lia) Hbs) as [_ Hd]. cbn. split; [done|]. split; [lia|exact Hd].
Qed.
Lemma leaf_order_entry {T} `{NumOps T} tr bi bs N (A B : list T) i j :
  leaf_entry tr bi bs N A B i j = entry_in tr (leaf_order tr bi bs) N A B i j.
Proof.
  unfold leaf_entry, leaf_order. destruct tr; cbn [negb]; [|done]. cbn [orb]. by destruct ((bi =? 0) || (bs <? 4)).
Qed.

Lemma is_matrix_eq {T} N (f g : nat -> nat -> T) C : is_matrix N f C -> (forall i j, i < N -> j < N -> f i j = g i j) -> is_matrix N g C.
Proof. intros [HL HC] Hfg. split; [done|]. intros i j Hi Hj. rewrite <- Hfg by done. by apply HC. Qed.

Lemma leaf_order_of o bs :
  let q := leaf_order (o_transposed o) (o_block_input o) bs in
  q = Straight \/ (o_transposed o = true /\ 0 < o_block_input o /\ q = Chunks (o_block_input o)).
Proof.
  cbv zeta. unfold leaf_order. destruct (o_transposed o); [|by left].
  destruct (Nat.eqb_spec (o_block_input o) 0) as [E|E]; [by left|]. cbn [orb]. destruct (bs <? 4); [by left|]. right. split; [done|]. split; [lia|done].
Qed.

Lemma same_order_of o G v : flag_ok o v -> suitable o G v ->
  exists q : nat -> nat -> summation,
    (forall i j, i < o_n o -> j < o_n o -> order_ok (o_n o) (multiplies o v) (q i j) /\ order_of o v (q i j)) /\
    forall (T : Type) (ops : NumOps T) (A B : list T), length A = o_n o * o_n o -> length B = o_n o * o_n o ->
      always_tol (tolerated v) (computation o G v A B) (is_matrix (o_n o) (fun i j => entry_in (multiplies o v) (q i j) (o_n o) A B i j)).
Proof.
  intros Hf Hs. set (N := o_n o) in *. destruct v; cbn [computation suitable multiplies] in *.
  - destruct Hs as (Hr&ms&d&H1&H2&H3&H4).
    exists (fun _ _ => leaf_order (o_transposed o) (o_block_input o) ms). split; [intros i j _ _; split; [by apply leaf_order_ok|exact (leaf_order_of o _)]|].
    intros T ops A B HA HB. destruct (Nat.eqb_spec (o_repetitions o) 0) as [?|_]; [lia|].
    apply always_to_tol. eapply must_mono; [|exact (single_always N A B (o_transposed o) (o_block_input o) (o_block_result o) ms d (o_repetitions o) HA HB H1 H2 H3 H4 Hr)].
    intros C m HC. eapply is_matrix_eq; [exact HC|]. intros i j _ _. cbn. apply leaf_order_entry.
  - destruct Hs as (HN&Hm&HG&Hr&He&Hl).
    destruct (ps_order N (o_transposed o) (o_block_input o) (o_block_result o) (o_min_work_size o)
      (o_max_work_difference o) (o_rel o) G (o_repetitions o) HN Hm HG Hr He Hl) as (msf&Hok&Hp).
    exists (fun i j => leaf_order (o_transposed o) (o_block_input o) (msf i j)). split; [intros i j Hi Hj; split; [by apply leaf_order_ok, Hok|exact (leaf_order_of o _)]|].
    intros T ops A B HA HB. apply always_to_tol. eapply must_mono; [|exact (Hp T ops A B HA HB)].
    intros C m HC. eapply is_matrix_eq; [exact HC|]. intros i j _ _. cbn. apply leaf_order_entry.
  - destruct Hs as (H1&H2&H3&H4). cbn in Hf. rewrite Hf. exists (fun _ _ => Chunks (o_block_input o)). split; [done|].
    intros T ops A B HA HB. apply always_to_tol; exact (alg_order N A B _ _ HA HB H1 H2 H3 H4).
  - destruct Hs as (H1&H2&H3&H4). cbn in Hf. rewrite Hf. exists (fun _ _ => Straight). split; [done|].
    intros T ops A B HA HB. destruct (looped_eq_naive N A B HA HB _ _ H1 H2 H3 H4) as (C&HC&Hl&_).
    apply always_to_tol. eapply must_mono; [|exact Hl]. intros C' m ->. exact HC.
  - destruct Hs as (H1&H2&H3). cbn in Hf. rewrite Hf. exists (fun _ _ => Chunks (o_block_input o)). split; [done|].
    intros T ops A B HA HB. apply always_to_tol; exact (semi_order N A B HA HB (o_block_result o) _ H1 H2 H3).
  - rewrite Hs. cbn in Hf. rewrite Hf. exists (fun _ _ => Padded shipped).
    split.
    { intros i j _ _. split; [|reflexivity]. cbn [order_ok]. split; [done|]. split; [cbn; lia|]. split; [cbn; lia|].
      destruct shipped_ok as (_&(_&_&[x1 E1])&(_&_&[x2 E2])&_). exists (x2 * x1). rewrite E2, E1. lia. }
    intros T ops A B HA HB. pose proof (combined_order1 shipped N A B shipped_ok HA HB) as Hc.
    unfold always_tol in *; eapply must_tol; [|exact Hc]; intros l Hl; cbn in Hl; split; [done|exact Hl].
  - done.
  - destruct Hs as (H1&H2&H3). exists (fun _ _ => Padded kt_shipped). split; [|intros T ops A B HA HB; apply always_to_tol; exact (kts_order N A B (o_transposed o) _ HA HB H2 H3 H1)].
    intros i j _ _. split; [|reflexivity]. cbn [order_ok]. split; [done|]. split; [cbn; lia|]. split; [cbn; lia|]. exists 32. reflexivity.
  - exists (fun _ _ => Padded shipped). split; [|intros T ops A B HA HB; apply always_to_tol; exact (kernel_tiled_always shipped N A B (o_transposed o) _ shipped_ok HA HB Hs)].
    intros i j _ _. split; [|reflexivity]. cbn [order_ok]. split; [done|]. split; [cbn; lia|]. split; [cbn; lia|].
    destruct shipped_ok as (_&(_&_&[x1 E1])&(_&_&[x2 E2])&_). exists (x2 * x1). rewrite E2, E1. lia.
Qed.

Lemma same_order o G v : flag_ok o v -> suitable o G v ->
  exists q : nat -> nat -> summation,
    (forall i j, i < o_n o -> j < o_n o -> order_ok (o_n o) (multiplies o v) (q i j)) /\
    forall (T : Type) (ops : NumOps T) (A B : list T), length A = o_n o * o_n o -> length B = o_n o * o_n o ->
      always_tol (tolerated v) (computation o G v A B) (is_matrix (o_n o) (fun i j => entry_in (multiplies o v) (q i j) (o_n o) A B i j)).
Proof.
  intros Hf Hs. destruct (same_order_of o G v Hf Hs) as (q&Hq&Hall). exists q. split; [|exact Hall].
  intros i j Hi Hj. exact (proj1 (Hq i j Hi Hj)).
Qed.
