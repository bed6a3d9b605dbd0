(** Proofs about src/variants/components/recursive.cpp and src/variants/single.cpp. *)
From Verif Require Import Tools MRecursive PKernels.

(** Cells of the arrays that belong to the call with result array [path]. *)
Definition sub (path : arr) (l : loc) : Prop := exists s, l.1 = s ++ path.

Lemma sub_self path i : sub path (path, i).
Proof. by exists []. Qed.
Lemma sub_cons q path l : sub (q :: path) l -> sub path l.
Proof. intros [s Hs]. exists (s ++ [q]). rewrite <- app_assoc. done. Qed.
Lemma sub_cons_ne q path l : sub (q :: path) l -> l.1 <> path.
Proof.
  intros [s Hs] He. rewrite Hs in He. apply (f_equal length) in He. rewrite app_length in He. simpl in He. lia.
Qed.
Lemma sub_disj q q' path l : q <> q' -> sub (q :: path) l -> sub (q' :: path) l -> False.
Proof.
  intros Hne [s Hs] [s' Hs']. rewrite Hs in Hs'.
  replace (s ++ q :: path) with ((s ++ [q]) ++ path) in Hs' by (by rewrite <- app_assoc).
  replace (s' ++ q' :: path) with ((s' ++ [q']) ++ path) in Hs' by (by rewrite <- app_assoc).
  apply app_inv_tail in Hs'. apply app_inj_2 in Hs' as [_ Hq]; [|done]. by simplify_eq.
Qed.

Section PRecursive.
  Context {T : Type} `{NumOps T}.
  Context (N : nat) (A B : list T) (transposed : bool) (block_input block_result : nat).
  Local Notation dist := (dist N A B transposed block_input block_result).
  Local Notation distribute_recursively := (distribute_recursively N A B transposed block_input block_result).

  Lemma acc_in_vput (R W : loc -> Prop) path (C : list T) : (forall i, W (path, i)) -> acc_in R W (vput path C).
  Proof.
    intros HW. apply acc_in_foldP. intros i s _. apply acc_in_bind; [apply acc_in_vget|].
    intros v. split; [apply HW|done].
  Qed.
  Lemma drf_vput path (C : list T) : drf (vput path C).
  Proof. apply drf_foldP. intros i s _. apply drf_bind; [apply drf_vget|]. done. Qed.
  Lemma run_vput path (C : list T) m :
    exists m', run (vput path C) m = Ok (tt, m') /\ (forall p, p < length C -> m' !! (path, p) = VD <$> C !! p).
  Proof.
    unfold vput.
    assert (forall k lo m, lo + k = length C ->
      exists m', run (foldP (seq lo k) (fun i _ => let! v := vget C i in Alloc (path, i) (VD v) (Ret tt)) tt) m = Ok (tt, m')
        /\ (forall p, lo <= p < length C -> m' !! (path, p) = VD <$> C !! p)
        /\ (forall p, p < lo -> m' !! (path, p) = m !! (path, p))) as Hg.
    { induction k as [|k IH]; intros lo m0 Hlo.
      - exists m0. split_and!; [done|intros; lia|done].
      - cbn [seq foldP]. destruct (lookup_lt_is_Some_2 C lo) as [c Hc]; [lia|].
        rewrite (vget_lookup _ _ _ Hc). cbn [pbind run].
        destruct (IH (S lo) (<[(path, lo) := VD c]> m0)) as (m'&Hr&H1&H2); [lia|].
        exists m'. split_and!; [exact Hr| |].
        + intros p Hp. destruct (decide (p = lo)) as [->|].
          * rewrite H2 by lia. rewrite lookup_insert. by rewrite Hc.
          * apply H1. lia.
        + intros p Hp. rewrite H2 by lia. rewrite lookup_insert_ne; [done|]. intros [=]. lia. }
    destruct (Hg (length C) 0 m) as (m'&Hr&H1&_); [lia|]. exists m'. split; [done|]. intros p Hp. apply H1. lia.
  Qed.

  Definition node (fuel : nat) (path : arr) (x y bs : nat) (o : nat * nat * nat) : prog T unit :=
    let '(q, ox, oy) := o in
    dist fuel (q :: path) (x + ox) (y + oy) (bs / 2) ;;;
    let! submatrix := vread (q :: path) (bs / 2 * (bs / 2)) in
    extract_submatrix path submatrix ox oy (bs / 2).
  Definition offsets (n : nat) : list (nat * nat * nat) := [(0, 0, 0); (1, n, 0); (2, 0, n); (3, n, n)].

  Lemma dist_leaf fuel path x y bs : fuel = 0 \/ bs <= block_result ->
    dist fuel path x y bs = (let! C := calculate_submatrix N A B transposed block_input x y bs in vput path C).
  Proof.
    intros Hb. destruct fuel; [done|]. destruct Hb as [?|Hb]; [done|]. simpl.
    by rewrite (proj2 (Nat.leb_le _ _) Hb).
  Qed.
  Lemma dist_node fuel path x y bs : block_result < bs ->
    dist (S fuel) path x y bs = (valloc path (bs * bs) nzero ;;; parL (offsets (bs / 2)) (node fuel path x y bs)).
  Proof. intros Hb. simpl. by rewrite (proj2 (Nat.leb_gt _ _) Hb). Qed.

  (** ** Footprints and race freedom, for all parameters *)
  Definition quad (path : arr) (n ox oy : nat) (l : loc) : Prop :=
    exists i j, i < n /\ j < n /\ l = (path, (ox + i) * (2 * n) + (oy + j)).
  Definition node_w (path : arr) (n : nat) (o : nat * nat * nat) (l : loc) : Prop :=
    sub (o.1.1 :: path) l \/ quad path n o.1.2 o.2 l.

  Lemma extract_acc R path (C : list T) ox oy n :
    acc_in R (quad path n ox oy) (extract_submatrix path C ox oy n).
  Proof.
    apply acc_in_pcatch; [done|]. apply acc_in_forS. intros i [] Hi _. apply acc_in_forS. intros j [] Hj _.
    apply acc_in_bind; [apply acc_in_vat|]. intros v. apply acc_in_wr_at. exists i, j. split_and!; [lia|lia|done].
  Qed.
  Lemma extract_drf path (C : list T) ox oy n : drf (extract_submatrix path C ox oy n).
  Proof.
    apply drf_pcatch; [done|]. apply drf_forS. intros i [] Hi _. apply drf_forS. intros j [] Hj _.
    apply drf_bind; [apply drf_vat|]. intros v. apply drf_wr_at.
  Qed.
  Lemma acc_in_vread (R W : loc -> Prop) a n : (forall i, R (a, i) \/ W (a, i)) -> acc_in R W (vread (T:=T) a n).
  Proof.
    intros HR. apply acc_in_foldP. intros i s _. apply acc_in_bind; [by apply acc_in_rd|]. done.
  Qed.

  Lemma node_acc_gen fuel path x y bs o :
    (forall path x y bs, acc_in (fun _ => False) (sub path) (dist fuel path x y bs)) ->
    acc_in (fun _ => False) (node_w path (bs / 2) o) (node fuel path x y bs o).
  Proof.
    intros Hd. destruct o as [[q ox] oy]. apply acc_in_bind.
    - eapply acc_in_mono; [| |apply Hd]; [done|]. intros l Hl. by left.
    - intros _. apply acc_in_bind.
      + apply acc_in_vread. intros i. right. left. apply sub_self.
      + intros C. eapply acc_in_mono; [| |apply extract_acc]; [|by right]. intros l Hl. exact Hl.
  Qed.
  Lemma dist_acc fuel path x y bs : acc_in (fun _ => False) (sub path) (dist fuel path x y bs).
  Proof.
    revert path x y bs. induction fuel as [|fuel IH]; intros path x y bs.
    - rewrite dist_leaf by auto. apply acc_in_bind; [apply simple_acc, simple_calculate_submatrix|].
      intros C. apply acc_in_vput. intros; apply sub_self.
    - destruct (decide (bs <= block_result)).
      + rewrite dist_leaf by auto. apply acc_in_bind; [apply simple_acc, simple_calculate_submatrix|].
        intros C. apply acc_in_vput. intros; apply sub_self.
      + rewrite dist_node by lia. apply acc_in_bind.
        * apply acc_in_valloc. intros; apply sub_self.
        * intros _. apply acc_in_parL. intros o _. eapply acc_in_mono; [| |by apply node_acc_gen]; [done|].
          intros l [Hl|(i&j&_&_&->)]; [by eapply sub_cons|apply sub_self].
  Qed.
  Lemma node_acc fuel path x y bs o :
    acc_in (fun _ => False) (node_w path (bs / 2) o) (node fuel path x y bs o).
  Proof. apply node_acc_gen. intros; apply dist_acc. Qed.

  Lemma offsets_cases n o : o ∈ offsets n -> o = (0, 0, 0) \/ o = (1, n, 0) \/ o = (2, 0, n) \/ o = (3, n, n).
  Proof. unfold offsets. rewrite !elem_of_cons, elem_of_nil. naive_solver. Qed.
  Lemma offsets_NoDup n : NoDup (offsets n).
  Proof. unfold offsets. repeat constructor; rewrite ?elem_of_cons, ?elem_of_nil; naive_solver. Qed.
  Lemma quad_disj path n o o' l : o ∈ offsets n -> o' ∈ offsets n -> o <> o' ->
    quad path n o.1.2 o.2 l -> quad path n o'.1.2 o'.2 l -> False.
  Proof.
    intros Ho Ho' Hne (i&j&Hi&Hj&->) (i'&j'&Hi'&Hj'&[= He]).
    assert (Hb : o.2 + j < 2 * n /\ o'.2 + j' < 2 * n).
    { apply offsets_cases in Ho, Ho'. destruct Ho as [->|[->|[->| ->]]], Ho' as [->|[->|[->| ->]]]; simpl; lia. }
    assert (o.1.2 + i = o'.1.2 + i' /\ o.2 + j = o'.2 + j') as [E1 E2].
    { apply (mixed_inj (2 * n)); [apply Hb|apply Hb|]. simpl. simpl in He. lia. }
    apply offsets_cases in Ho, Ho'.
    destruct Ho as [->|[->|[->| ->]]], Ho' as [->|[->|[->| ->]]]; simpl in *; try done; lia.
  Qed.
  Lemma node_w_disj path n o o' l : o ∈ offsets n -> o' ∈ offsets n -> o <> o' ->
    node_w path n o l -> node_w path n o' l -> False.
  Proof.
    intros Ho Ho' Hne [H1|H1] [H2|H2].
    - eapply sub_disj; [|exact H1|exact H2]. apply offsets_cases in Ho, Ho'.
      destruct Ho as [->|[->|[->| ->]]], Ho' as [->|[->|[->| ->]]]; simpl in *; done.
    - apply sub_cons_ne in H1. destruct H2 as (?&?&?&?&->). done.
    - apply sub_cons_ne in H2. destruct H1 as (?&?&?&?&->). done.
    - exact (quad_disj path n o o' l Ho Ho' Hne H1 H2).
  Qed.

  Lemma dist_drf fuel path x y bs : drf (dist fuel path x y bs).
  Proof.
    assert (Hleaf : forall fuel path x y bs, fuel = 0 \/ bs <= block_result -> drf (dist fuel path x y bs)).
    { intros. rewrite dist_leaf by done. apply drf_bind; [apply simple_drf, simple_calculate_submatrix|].
      intros; apply drf_vput. }
    revert path x y bs. induction fuel as [|fuel IH]; intros path x y bs; [by apply Hleaf; left|].
    destruct (decide (bs <= block_result)); [by apply Hleaf; right|].
    rewrite dist_node by lia. apply drf_bind; [apply drf_valloc|intros _].
    apply (drf_parL _ _ (fun _ _ => False) (node_w path (bs / 2))).
    - apply offsets_NoDup.
    - intros [[q ox] oy] _. apply drf_bind; [apply IH|intros _].
      apply drf_bind; [apply drf_vread|intros C]. apply extract_drf.
    - intros o _. apply node_acc.
    - intros o o' l Ho Ho' Hne H1 [[]|H2]. exact (node_w_disj path _ o o' l Ho Ho' Hne H1 H2).
  Qed.
  Lemma distribute_drf path x y bs : drf (distribute_recursively path x y bs).
  Proof. apply drf_bind; [apply dist_drf|intros _; apply drf_vread]. Qed.

  (** ** One level of the recursion *)
  Definition extract_us (path : arr) (C : list T) (ox oy n : nat) : list (loc * (T -> T)) :=
    seq 0 n ≫= fun i => seq 0 n ≫= fun j => [((path, (ox + i) * (2 * n) + (oy + j)), fun _ => ent n C i j)].
  Lemma extract_does path (C : list T) ox oy n : length C = n * n ->
    does (extract_submatrix path C ox oy n) (extract_us path C ox oy n).
  Proof.
    intros HC. apply does_pcatch. unfold extract_us.
    replace (seq 0 n) with (rng 0 n 1) by (by rewrite rng_1, Nat.sub_0_r).
    apply does_forP; [lia|]. intros i Hi. apply rng_bounds in Hi.
    apply does_forP; [lia|]. intros j Hj. apply rng_bounds in Hj.
    rewrite (vat_lookup C _ _ (ent_lookup_sq n C i j HC ltac:(lia) ltac:(lia))). apply does_wr_at.
  Qed.
  Lemma contrib_extract path (C : list T) ox oy n i j : i < n -> j < n -> oy <= n ->
    contrib (path, (ox + i) * (2 * n) + (oy + j)) (extract_us path C ox oy n) = [fun _ => ent n C i j].
  Proof.
    intros Hi Hj Hoy. unfold extract_us. rewrite contrib_bind, (bind_select _ _ i).
    - rewrite contrib_bind, (bind_select _ _ j).
      + apply contrib_single_eq.
      + apply NoDup_seq.
      + apply elem_of_seq. lia.
      + intros j' Hj' Hne. apply contrib_single_ne. intros [=]. lia.
    - apply NoDup_seq.
    - apply elem_of_seq. lia.
    - intros i' Hi' Hne. apply elem_of_seq in Hi'. apply contrib_none.
      intros u (j'&Hu&Hj')%elem_of_list_bind. apply elem_of_list_singleton in Hu as ->.
      apply elem_of_seq in Hj'. cbn [fst]. intros [= He].
      assert (ox + i' = ox + i /\ oy + j' = oy + j); [|lia]. apply (mixed_inj (2 * n)); [lia|lia|].
      simpl. lia.
  Qed.

  Lemma node_run fuel path x y bs (Cq : nat -> list T) m :
    (forall q ox oy m, (q, ox, oy) ∈ offsets (bs / 2) ->
       length (Cq q) = bs / 2 * (bs / 2) /\
       exists m', run (dist fuel (q :: path) (x + ox) (y + oy) (bs / 2)) m = Ok (tt, m') /\
         forall p, p < bs / 2 * (bs / 2) -> m' !! (q :: path, p) = VD <$> Cq q !! p) ->
    exists m', run (valloc path (bs * bs) nzero ;;; parL (offsets (bs / 2)) (node fuel path x y bs)) m = Ok (tt, m') /\
      (forall q ox oy i j, (q, ox, oy) ∈ offsets (bs / 2) -> i < bs / 2 -> j < bs / 2 ->
         m' !! (path, (ox + i) * (2 * (bs / 2)) + (oy + j)) = VD <$> Cq q !! (i * (bs / 2) + j)) /\
      (forall p, (2 * (bs / 2)) * (2 * (bs / 2)) <= p < bs * bs -> m' !! (path, p) = Some (VD nzero)).
  Proof.
    intros Hch. set (n := bs / 2).
    assert (Hn : 2 * n <= bs) by (apply Nat.mul_div_le; lia).
    destruct (run_valloc path (bs * bs) (nzero : T) m) as (m1&Hr1&Hz1&_).
    rewrite run_bind, Hr1.
    destruct (run_parL_sep (offsets n) (node fuel path x y bs)
      (fun m => (forall p, p < bs * bs -> exists t, m !! (path, p) = Some (VD t)) /\
                (forall p, (2 * n) * (2 * n) <= p < bs * bs -> m !! (path, p) = Some (VD nzero)))
      (fun o m => forall i j, i < n -> j < n -> m !! (path, (o.1.2 + i) * (2 * n) + (o.2 + j)) = VD <$> Cq o.1.1 !! (i * n + j))
      m1) as (m'&Hr&[_ HI]&HQ).
    - apply offsets_NoDup.
    - split; [intros p Hp; eauto|]. intros p Hp. apply Hz1. lia.
    - intros [[q ox] oy] m2 Ho [HI1 HI2].
      destruct (Hch q ox oy m2 Ho) as (HlC&m3&Hr3&H3).
      assert (Hb : ox <= n /\ oy <= n).
      { apply offsets_cases in Ho. destruct Ho as [[= -> -> ->]|[[= -> -> ->]|[[= -> -> ->]|[= -> -> ->]]]]; lia. }
      assert (Hu : forall p, m3 !! (path, p) = m2 !! (path, p)).
      { intros p. eapply run_unchanged; [apply dist_acc|exact Hr3|].
        intros Hs. by apply sub_cons_ne in Hs. }
      assert (Hpres : present (extract_us path (Cq q) ox oy n) m3).
      { intros u (i&Hu1&Hi)%elem_of_list_bind. apply elem_of_list_bind in Hu1 as (j&Hu1&Hj).
        apply elem_of_list_singleton in Hu1 as ->. cbn [fst]. rewrite Hu. apply HI1.
        apply elem_of_seq in Hi, Hj.
        apply Nat.lt_le_trans with ((2 * n) * (2 * n)); [apply mixed_lt; lia|].
        apply Nat.mul_le_mono; done. }
      exists (applyM (extract_us path (Cq q) ox oy n) m3). split_and!.
      + unfold node. fold n. fold n in Hr3. rewrite run_bind, Hr3. rewrite run_bind.
        rewrite (run_vread _ _ (Cq q)); [|done|done]. by apply extract_does.
      + intros p Hp. rewrite applyM_lookup, Hu. destruct (HI1 p Hp) as [t ->]. simpl. eauto.
      + intros p Hp. rewrite applyM_lookup, Hu, HI2 by done. simpl. do 2 f_equal.
        rewrite contrib_none; [done|]. intros u (i&Hu1&Hi)%elem_of_list_bind.
        apply elem_of_list_bind in Hu1 as (j&Hu1&Hj). apply elem_of_list_singleton in Hu1 as ->.
        apply elem_of_seq in Hi, Hj. cbn [fst]. intros [= He].
        assert ((ox + i) * (2 * n) + (oy + j) < 2 * n * (2 * n)) by (apply mixed_lt; lia). simpl in *. lia.
      + intros i j Hi Hj. cbn [fst snd]. rewrite applyM_lookup, contrib_extract by (done || lia).
        rewrite Hu. destruct (HI1 ((ox + i) * (2 * n) + (oy + j))) as [t ->].
        * apply Nat.lt_le_trans with ((2 * n) * (2 * n)); [apply mixed_lt; lia|]. by apply Nat.mul_le_mono.
        * rewrite (ent_lookup_sq n (Cq q) i j HlC Hi Hj). done.
    - intros o o' m2 m3 Ho Ho' Hne _ HQ Hr3 i j Hi Hj. rewrite <- HQ by done.
      eapply run_unchanged; [apply node_acc|exact Hr3|]. fold n. intros Hw.
      eapply (node_w_disj path n o o'); [done|done|done| |exact Hw]. right. exists i, j. done.
    - exists m'. split_and!; [done| |done]. intros q ox oy i j Ho Hi Hj. by apply (HQ (q, ox, oy)).
  Qed.

  (** ** Correctness for evenly halving sizes *)
  Context (HA : length A = N * N) (HB : length B = N * N).

  Lemma leaf_run fuel path x y bs m : fuel = 0 \/ bs <= block_result ->
    x + bs <= N -> y + bs <= N -> leaf_ok transposed block_input bs N ->
    exists C m', run (dist fuel path x y bs) m = Ok (tt, m') /\
      is_block bs x y (leaf_entry transposed block_input bs N A B) C /\
      forall p, p < bs * bs -> m' !! (path, p) = VD <$> C !! p.
  Proof.
    intros Hf Hx Hy Hok. rewrite dist_leaf by done.
    destruct (calculate_submatrix_order N A B transposed block_input x y bs HA HB Hx Hy Hok) as (C&->&HC).
    cbn [pbind]. destruct (run_vput path C m) as (m'&Hr&Hm'). exists C, m'. split_and!; [done|done|].
    intros p Hp. apply Hm'. destruct HC as [-> _]. done.
  Qed.

  (** The four quadrants of an even block. *)
  Lemma quadrants n (f : nat -> nat -> T) (Cq : nat -> list T) (x y : nat) (g : nat -> option (val T)) :
    (forall q ox oy, (q, ox, oy) ∈ offsets n -> is_block n (x + ox) (y + oy) f (Cq q)) ->
    (forall q ox oy i j, (q, ox, oy) ∈ offsets n -> i < n -> j < n ->
       g ((ox + i) * (2 * n) + (oy + j)) = VD <$> Cq q !! (i * n + j)) ->
    forall i j, i < 2 * n -> j < 2 * n -> g (i * (2 * n) + j) = Some (VD (f (x + i) (y + j))).
  Proof. clear HA HB.
    intros HC Hg i j Hi Hj.
    assert (Hq : forall q ox oy i' j', (q, ox, oy) ∈ offsets n -> i' < n -> j' < n -> i = ox + i' -> j = oy + j' ->
      g (i * (2 * n) + j) = Some (VD (f (x + i) (y + j)))).
    { intros q ox oy i' j' Ho Hi' Hj' -> ->. rewrite (Hg q) by done.
      destruct (HC q ox oy Ho) as [_ HC']. rewrite HC' by done. simpl. do 2 f_equal. f_equal; lia. }
    assert (forall q ox oy, (q, ox, oy) = (0, 0, 0) \/ (q, ox, oy) = (1, n, 0) \/ (q, ox, oy) = (2, 0, n) \/ (q, ox, oy) = (3, n, n) ->
        (q, ox, oy) ∈ offsets n) as Hin.
    { intros q ox oy Ho. unfold offsets. rewrite !elem_of_cons. tauto. }
    destruct (decide (i < n)), (decide (j < n)).
    - apply (Hq 0 0 0 i j); [apply Hin; auto|lia..].
    - apply (Hq 2 0 n i (j - n)); [apply Hin; auto|lia..].
    - apply (Hq 1 n 0 (i - n) j); [apply Hin; auto|lia..].
    - apply (Hq 3 n n (i - n) (j - n)); [apply Hin; auto|lia..].
  Qed.

  Lemma matrix_of_cells n (f : nat -> nat -> T) (g : nat -> option (val T)) :
    (forall i j, i < n -> j < n -> g (i * n + j) = Some (VD (f i j))) ->
    exists C, is_matrix n f C /\ forall p, p < n * n -> g p = VD <$> C !! p.
  Proof. clear HA HB.
    intros Hg. exists ((fun p => f (p / n) (p mod n)) <$> seq 0 (n * n)). split.
    - split; [by rewrite fmap_length, seq_length|]. intros i j Hi Hj.
      rewrite list_lookup_fmap, lookup_seq_lt by (by apply mixed_lt). simpl.
      rewrite Nat.div_add_l, Nat.div_small, Nat.add_0_r by lia.
      rewrite Nat.add_comm, Nat.mod_add, Nat.mod_small by lia. done.
    - intros p Hp. assert (n <> 0) by (intros ->; lia).
      rewrite list_lookup_fmap, lookup_seq_lt by done. simpl.
      rewrite <- Hg; [|apply Nat.div_lt_upper_bound; lia|by apply Nat.mod_upper_bound].
      f_equal. rewrite (Nat.div_mod p n) at 1 by done. lia.
  Qed.

  Lemma offsets_bounds n q ox oy : (q, ox, oy) ∈ offsets n -> ox <= n /\ oy <= n.
  Proof. clear HA HB.
    intros Ho. apply offsets_cases in Ho. destruct Ho as [[= -> -> ->]|[[= -> -> ->]|[[= -> -> ->]|[= -> -> ->]]]]; lia.
  Qed.

  (** Choice of the children's results. *)
  Lemma children_choice fuel path x y n (P : nat -> nat -> nat -> list T -> Prop) :
    (forall q ox oy, (q, ox, oy) ∈ offsets n -> exists C, P q ox oy C /\ length C = n * n /\
      forall m, exists m', run (dist fuel (q :: path) (x + ox) (y + oy) n) m = Ok (tt, m') /\
        forall p, p < n * n -> m' !! (q :: path, p) = VD <$> C !! p) ->
    exists Cq, (forall q ox oy m, (q, ox, oy) ∈ offsets n ->
       length (Cq q) = n * n /\
       exists m', run (dist fuel (q :: path) (x + ox) (y + oy) n) m = Ok (tt, m') /\
         forall p, p < n * n -> m' !! (q :: path, p) = VD <$> Cq q !! p) /\
      (forall q ox oy, (q, ox, oy) ∈ offsets n -> P q ox oy (Cq q)).
  Proof. clear HA HB.
    intros Hc.
    destruct (Hc 0 0 0) as (C0&?&?&?); [unfold offsets; rewrite !elem_of_cons; tauto|].
    destruct (Hc 1 n 0) as (C1&?&?&?); [unfold offsets; rewrite !elem_of_cons; tauto|].
    destruct (Hc 2 0 n) as (C2&?&?&?); [unfold offsets; rewrite !elem_of_cons; tauto|].
    destruct (Hc 3 n n) as (C3&?&?&?); [unfold offsets; rewrite !elem_of_cons; tauto|].
    exists (fun q => match q with 0 => C0 | 1 => C1 | 2 => C2 | _ => C3 end). split.
    - intros q ox oy m Ho. apply offsets_cases in Ho.
      destruct Ho as [[= -> -> ->]|[[= -> -> ->]|[[= -> -> ->]|[= -> -> ->]]]]; auto.
    - intros q ox oy Ho. apply offsets_cases in Ho.
      destruct Ho as [[= -> -> ->]|[[= -> -> ->]|[[= -> -> ->]|[= -> -> ->]]]]; auto.
  Qed.

  Lemma dist_run ms d fuel path x y :
    ms <= block_result -> d = 0 \/ block_result < 2 * ms -> leaf_ok transposed block_input ms N ->
    d <= fuel -> x + ms * 2 ^ d <= N -> y + ms * 2 ^ d <= N ->
    exists C, is_block (ms * 2 ^ d) x y (leaf_entry transposed block_input ms N A B) C /\
      forall m, exists m', run (dist fuel path x y (ms * 2 ^ d)) m = Ok (tt, m') /\
        forall p, p < ms * 2 ^ d * (ms * 2 ^ d) -> m' !! (path, p) = VD <$> C !! p.
  Proof.
    intros Hms. revert fuel path x y. induction d as [|d IH]; intros fuel path x y Hbr Hok Hf Hx Hy.
    - rewrite Nat.pow_0_r, Nat.mul_1_r in *.
      destruct (calculate_submatrix_order N A B transposed block_input x y ms HA HB Hx Hy Hok) as (C&HCe&HC).
      exists C. split; [done|]. intros m. rewrite dist_leaf by auto. rewrite HCe. cbn [pbind].
      destruct (run_vput path C m) as (m'&Hr&Hm'). exists m'. split; [done|].
      intros p Hp. apply Hm'. destruct HC as [-> _]. done.
    - destruct fuel as [|fuel]; [lia|]. destruct Hbr as [|Hbr]; [done|].
      set (n := ms * 2 ^ d). assert (Hbs : ms * 2 ^ S d = 2 * n) by (unfold n; rewrite Nat.pow_succ_r'; lia).
      rewrite Hbs in *. assert (Hhalf : 2 * n / 2 = n) by (rewrite Nat.mul_comm; apply Nat.div_mul; lia).
      assert (1 <= 2 ^ d) by (apply Nat.neq_0_lt_0, Nat.pow_nonzero; lia).
      assert (ms <= n) by (unfold n; nia).
      assert (Hnode : forall m, run (dist (S fuel) path x y (2 * n)) m =
        run (valloc path (2 * n * (2 * n)) nzero ;;; parL (offsets (2 * n / 2)) (node fuel path x y (2 * n))) m)
        by (intros m; by rewrite dist_node by lia).
      destruct (children_choice fuel path x y n
        (fun q ox oy C => is_block n (x + ox) (y + oy) (leaf_entry transposed block_input ms N A B) C)) as (Cq&Hrun&HP).
      { intros q ox oy Ho. pose proof (offsets_bounds _ _ _ _ Ho).
        destruct (IH fuel (q :: path) (x + ox) (y + oy)) as (C&HC&HCr); [by right|done|lia|fold n; lia|fold n; lia|].
        exists C. split_and!; [done|by destruct HC|exact HCr]. }
      set (f := leaf_entry transposed block_input ms N A B) in *.
      set (C := (fun p => f (x + p / (2 * n)) (y + p mod (2 * n))) <$> seq 0 (2 * n * (2 * n))).
      assert (HCm : is_block (2 * n) x y f C).
      { split; [unfold C; by rewrite fmap_length, seq_length|]. intros i j Hi Hj. unfold C.
        rewrite list_lookup_fmap, lookup_seq_lt by (by apply mixed_lt). cbn [fmap option_fmap option_map].
        rewrite Nat.add_0_l, Nat.div_add_l, Nat.div_small, Nat.add_0_r by lia.
        rewrite (Nat.add_comm (i * _)), Nat.mod_add, Nat.mod_small by lia. done. }
      exists C. split; [done|]. intros m. rewrite Hnode.
      destruct (node_run fuel path x y (2 * n) Cq m) as (m'&Hr&Hq&_).
      { rewrite Hhalf. exact Hrun. }
      exists m'. split; [exact Hr|]. rewrite Hhalf in Hq.
      intros p Hp. assert (2 * n <> 0) by (intros He; rewrite He in Hp; lia).
      assert (p / (2 * n) < 2 * n) by (apply Nat.div_lt_upper_bound; lia).
      pose proof (Nat.mod_upper_bound p (2 * n) ltac:(done)).
      rewrite (Nat.div_mod p (2 * n)) by done. rewrite (Nat.mul_comm (2 * n) (p / (2 * n))).
      rewrite (quadrants n f Cq x y (fun p => m' !! (path, p)) HP Hq (p / (2 * n)) (p mod (2 * n)) ltac:(done) ltac:(done)).
      destruct HCm as [_ HCm]. rewrite HCm by done. done.
  Qed.

  Lemma pow2_ge d : d < 2 ^ d.
  Proof. apply Nat.pow_gt_lin_r. lia. Qed.

  Lemma distribute_correct ms d path x y :
    ms <= block_result -> d = 0 \/ block_result < 2 * ms -> leaf_ok transposed block_input ms N ->
    x + ms * 2 ^ d <= N -> y + ms * 2 ^ d <= N ->
    exists C, is_block (ms * 2 ^ d) x y (leaf_entry transposed block_input ms N A B) C /\
      forall m, exists m', run (distribute_recursively path x y (ms * 2 ^ d)) m = Ok (C, m').
  Proof.
    intros Hms Hbr Hok Hx Hy.
    destruct (dist_run ms d (ms * 2 ^ d) path x y Hms Hbr Hok) as (C&HC&Hr); [|done|done|].
    { pose proof (pow2_ge d). destruct Hbr as [->|?]; [lia|]. nia. }
    exists C. split; [done|]. intros m. destruct (Hr m) as (m'&Hr1&Hm'). exists m'.
    unfold MRecursive.distribute_recursively. rewrite run_bind, Hr1. apply run_vread; [|done].
    by destruct HC.
  Qed.

  Lemma single_drf reps : drf (single_matrix_multiply N A B transposed block_input block_result reps).
  Proof. clear HA HB. apply drf_forS. intros r s _ _. apply distribute_drf. Qed.

  Lemma single_run ms d reps :
    N = ms * 2 ^ d -> ms <= block_result -> d = 0 \/ block_result < 2 * ms -> leaf_ok transposed block_input ms N ->
    exists C m, run (single_matrix_multiply N A B transposed block_input block_result reps) ∅ = Ok (C, m) /\
      (if decide (reps = 0) then is_zero N C else is_matrix N (leaf_entry transposed block_input ms N A B) C).
  Proof.
    intros HN Hms Hbr Hok.
    unfold single_matrix_multiply. rewrite forS_step by lia. rewrite rng_1, Nat.sub_0_r.
    assert (forall r, exists C, is_matrix N (leaf_entry transposed block_input ms N A B) C /\
      forall m, exists m', run (distribute_recursively [r] 0 0 N) m = Ok (C, m')) as Hd.
    { intros r. pose proof (distribute_correct ms d [r] 0 0 Hms Hbr Hok) as Hd. rewrite <- HN in Hd.
      destruct Hd as (C&HC&Hr); [lia|lia|]. exists C. split; [exact HC|done]. }
    assert (forall rs C m, exists C' m', run (foldP rs (fun r _ => distribute_recursively [r] 0 0 N) C) m = Ok (C', m') /\
       (if decide (length rs = 0) then C' = C else is_matrix N (leaf_entry transposed block_input ms N A B) C')) as Hl.
    { induction rs as [|r rs IH]; intros C m; [by exists C, m|].
      destruct (Hd r) as (C1&HC1&Hr1). destruct (Hr1 m) as (m1&Hr1').
      destruct (IH C1 m1) as (C2&m2&Hr2&HC2). exists C2, m2. cbn [foldP]. rewrite run_bind, Hr1'.
      split; [exact Hr2|]. simpl. destruct rs; simpl in *; [by subst|done]. }
    destruct (Hl (seq 0 reps) (replicate (N * N) nzero) ∅) as (C&m&Hr&HC). exists C, m. split; [exact Hr|].
    rewrite seq_length in HC. case_decide; [|done]. subst C. split; [by rewrite replicate_length|].
    intros i j Hi Hj. apply lookup_replicate_2. by apply mixed_lt.
  Qed.

  (** ** Odd sizes *)
  Lemma odd_run ms d path x y n :
    ms <= block_result -> d = 0 \/ block_result < 2 * ms -> leaf_ok transposed block_input ms N ->
    n = ms * 2 ^ d -> block_result < 2 * n + 1 -> x + (2 * n + 1) <= N -> y + (2 * n + 1) <= N ->
    exists C, length C = (2 * n + 1) * (2 * n + 1) /\
      (forall i j, i < 2 * n -> j < 2 * n ->
         C !! (i * (2 * n) + j) = Some (leaf_entry transposed block_input ms N A B (x + i) (y + j))) /\
      (forall p, 2 * n * (2 * n) <= p < (2 * n + 1) * (2 * n + 1) -> C !! p = Some nzero) /\
      exists m', run (distribute_recursively path x y (2 * n + 1)) ∅ = Ok (C, m').
  Proof.
    intros Hms Hbr Hok Hn Hbs Hx Hy.
    set (f := leaf_entry transposed block_input ms N A B).
    assert (Hhalf : (2 * n + 1) / 2 = n).
    { rewrite Nat.mul_comm, Nat.div_add_l by lia. simpl. rewrite Nat.div_small by lia. lia. }
    destruct (children_choice (2 * n) path x y n (fun q ox oy C => is_block n (x + ox) (y + oy) f C)) as (Cq&Hrun&HP).
    { intros q ox oy Ho. pose proof (offsets_bounds _ _ _ _ Ho).
      destruct (dist_run ms d (2 * n) (q :: path) (x + ox) (y + oy)) as (C&HC&HCr); [done|done|done| |lia|lia|].
      - pose proof (pow2_ge d). destruct Hbr as [->|]; [lia|]. nia.
      - rewrite <- Hn in *. exists C. split_and!; [done|by destruct HC|exact HCr]. }
    destruct (node_run (2 * n) path x y (2 * n + 1) Cq ∅) as (m'&Hr&Hq&Hz).
    { rewrite Hhalf. exact Hrun. }
    rewrite Hhalf in Hq, Hz.
    pose proof (quadrants n f Cq x y (fun p => m' !! (path, p)) HP Hq) as Hcell. simpl in Hcell.
    set (g := fun p => if decide (p < 2 * n * (2 * n)) then f (x + p / (2 * n)) (y + p mod (2 * n)) else nzero).
    assert (Hg : forall p, p < (2 * n + 1) * (2 * n + 1) -> m' !! (path, p) = Some (VD (g p))).
    { intros p Hp. unfold g. case_decide as Hlt.
      - assert (2 * n <> 0) by (intros He; rewrite He in Hlt; lia).
        assert (p / (2 * n) < 2 * n) by (apply Nat.div_lt_upper_bound; lia).
        pose proof (Nat.mod_upper_bound p (2 * n) ltac:(done)).
        rewrite <- (quadrants n f Cq x y (fun p => m' !! (path, p)) HP Hq) by done.
        do 2 f_equal. rewrite (Nat.div_mod p (2 * n)) at 1 by done. lia.
      - apply Hz. lia. }
    exists (g <$> seq 0 ((2 * n + 1) * (2 * n + 1))). split_and!.
    - by rewrite fmap_length, seq_length.
    - intros i j Hi Hj. assert (i * (2 * n) + j < 2 * n * (2 * n)) by (by apply mixed_lt).
      assert (2 * n * (2 * n) <= (2 * n + 1) * (2 * n + 1)) by (apply Nat.mul_le_mono; lia).
      rewrite list_lookup_fmap, lookup_seq_lt by lia. cbn [fmap option_fmap option_map]. f_equal.
      unfold g. rewrite decide_True by lia. rewrite Nat.add_0_l.
      rewrite Nat.div_add_l, Nat.div_small, Nat.add_0_r by lia.
      rewrite (Nat.add_comm (i * _)), Nat.mod_add, Nat.mod_small by lia. done.
    - intros p Hp. rewrite list_lookup_fmap, lookup_seq_lt by lia. cbn [fmap option_fmap option_map]. f_equal.
      unfold g. rewrite decide_False by lia. done.
    - exists m'. unfold MRecursive.distribute_recursively. rewrite run_bind.
      replace (2 * n + 1) with (S (2 * n)) at 1 by lia.
      rewrite dist_node by lia. rewrite Hr. apply run_vread; [by rewrite fmap_length, seq_length|].
      intros p Hp. rewrite list_lookup_fmap, lookup_seq_lt by done. simpl. by apply Hg.
  Qed.

  (** Whatever the other parameters are, the tail of an odd block stays zero. *)
  Lemma odd_tail path x y n C m' : block_result < 2 * n + 1 ->
    run (distribute_recursively path x y (2 * n + 1)) ∅ = Ok (C, m') ->
    length C = (2 * n + 1) * (2 * n + 1) /\
    forall p, 2 * n * (2 * n) <= p < (2 * n + 1) * (2 * n + 1) -> C !! p = Some nzero.
  Proof. clear HA HB.
    intros Hbs. unfold MRecursive.distribute_recursively. rewrite run_bind.
    replace (2 * n + 1) with (S (2 * n)) at 1 by lia. rewrite dist_node by lia. rewrite run_bind.
    destruct (run_valloc path ((2 * n + 1) * (2 * n + 1)) (nzero : T) ∅) as (m1&->&Hz1&_).
    assert (Hhalf : (2 * n + 1) / 2 = n).
    { rewrite Nat.mul_comm, Nat.div_add_l by lia. simpl. rewrite Nat.div_small by lia. lia. }
    destruct (run (parL _ _) m1) as [[u m2]|] eqn:E2; [|done]. intros Hr.
    assert (Hm2 : forall p, 2 * n * (2 * n) <= p < (2 * n + 1) * (2 * n + 1) -> m2 !! (path, p) = Some (VD nzero)).
    { intros p Hp. rewrite <- (Hz1 p) by lia.
      eapply (run_unchanged (fun _ => False) (fun l => exists o, o ∈ offsets n /\ node_w path n o l)); [|exact E2|].
      - apply acc_in_parL. intros o Ho. eapply acc_in_mono; [| |apply node_acc]; [done|].
        rewrite Hhalf in *. intros l Hl. by exists o.
      - intros ([[q ox] oy]&Ho&[Hs|(i&j&Hi&Hj&[= He])]); [by apply sub_cons_ne in Hs|].
        pose proof (offsets_bounds _ _ _ _ Ho). simpl in He.
        assert ((ox + i) * (2 * n) + (oy + j) < 2 * n * (2 * n)) by (apply mixed_lt; lia). simpl in *. lia. }
    apply run_vread_inv in Hr as (_&H1&H3). split; [done|]. intros p Hp.
    specialize (H3 p ltac:(lia)). rewrite Hm2 in H3 by done.
    destruct (C !! p); simpl in H3; by simplify_eq.
  Qed.
End PRecursive.

(** ** block_result = 0 *)
Section BlockZero.
  Context {T : Type} `{NumOps T}.
  Context (N : nat) (A B : list T) (transposed : bool) (block_input : nat).

  Lemma leaf_zero x y : calculate_submatrix N A B transposed block_input x y 0 = Ret [].
  Proof.
    unfold calculate_submatrix, kernel, kernel_transposed. destruct transposed; simpl; [|done].
    by rewrite orb_true_r.
  Qed.
  Lemma dist_zero fuel path x y bs : bs <= fuel ->
    forall m, exists m', run (dist N A B transposed block_input 0 fuel path x y bs) m = Ok (tt, m') /\
      forall p, p < bs * bs -> m' !! (path, p) = Some (VD nzero).
  Proof.
    revert path x y bs. induction fuel as [|fuel IH]; intros path x y bs Hf m.
    - replace bs with 0 by lia. rewrite dist_leaf by auto. rewrite leaf_zero. exists m. split; [done|intros; lia].
    - destruct (decide (bs = 0)) as [->|Hbs0].
      { rewrite dist_leaf by auto. rewrite leaf_zero. exists m. split; [done|intros; lia]. }
      rewrite dist_node by lia. set (n := bs / 2).
      assert (Hn : n < bs) by (apply Nat.div_lt; lia).
      destruct (node_run N A B transposed block_input 0 fuel path x y bs (fun _ => replicate (n * n) nzero) m) as (m'&Hr&Hq&Hz).
      { intros q ox oy m0 Ho. split; [by rewrite replicate_length|].
        destruct (IH (q :: path) (x + ox) (y + oy) n ltac:(lia) m0) as (m'&Hr&Hm'). exists m'. split; [done|].
        intros p Hp. rewrite Hm' by done. by rewrite lookup_replicate_2. }
      exists m'. split; [done|]. intros p Hp. fold n in Hq, Hz.
      destruct (decide (2 * n * (2 * n) <= p)); [apply Hz; lia|].
      assert (2 * n <> 0) by (intros He; rewrite He in *; lia).
      assert (p / (2 * n) < 2 * n) by (apply Nat.div_lt_upper_bound; lia).
      pose proof (Nat.mod_upper_bound p (2 * n) ltac:(done)).
      rewrite (Nat.div_mod p (2 * n)) by done. rewrite (Nat.mul_comm (2 * n) (p / (2 * n))).
      apply (quadrants n (fun _ _ => nzero) (fun _ => replicate (n * n) nzero) x y (fun p => m' !! (path, p))); [|done|done|done].
      intros q ox oy _. split; [by rewrite replicate_length|]. intros i j Hi Hj.
      apply lookup_replicate_2. by apply mixed_lt.
  Qed.
  Lemma single_zero_run reps : exists m,
    run (single_matrix_multiply N A B transposed block_input 0 reps) ∅ = Ok (replicate (N * N) nzero, m).
  Proof.
    unfold single_matrix_multiply. rewrite forS_step by lia. generalize (rng 0 reps 1) as rs. intros rs.
    generalize (∅ : mem T) as m0. induction rs as [|r rs IH]; intros m0; [by exists m0|].
    cbn [foldP]. destruct (dist_zero N [r] 0 0 N ltac:(lia) m0) as (m1&Hr&Hm1).
    destruct (IH m1) as (m2&Hr2). exists m2. rewrite run_bind. unfold distribute_recursively.
    rewrite run_bind, Hr. rewrite (run_vread _ _ (replicate (N * N) nzero)); [exact Hr2|by rewrite replicate_length|].
    intros i Hi. rewrite Hm1 by done. by rewrite lookup_replicate_2.
  Qed.
End BlockZero.

(** ** The default command line *)
Lemma default_cli {T} `{NumOps T} (A B : list T) :
  length A = 16 -> length B = 16 -> single_matrix_multiply 4 A B true 128 128 1 = Err EOob.
Proof.
  intros HA HB. unfold single_matrix_multiply. rewrite forS_step by lia.
  change (rng 0 1 1) with [0]. cbn [foldP]. unfold distribute_recursively.
  rewrite (dist_leaf 4 A B true 128 128 4 [0] 0 0 4) by (right; lia). unfold calculate_submatrix. cbn [negb].
  replace ((128 =? 0) || (4 <? 4)) with false by done.
  rewrite ktb_oob_input; [done|done|done|by rewrite replicate_length|lia|lia|lia|lia| |lia].
  intros [q Hq]. lia.
Qed.

(** ** All schedules *)
Section Always.
  Context {T : Type} `{NumOps T}.
  Context (N : nat) (A B : list T).

  Lemma distribute_always transposed bi br ms d path x y :
    length A = N * N -> length B = N * N ->
    ms <= br -> d = 0 \/ br < 2 * ms -> leaf_ok transposed bi ms N ->
    x + ms * 2 ^ d <= N -> y + ms * 2 ^ d <= N ->
    always (distribute_recursively N A B transposed bi br path x y (ms * 2 ^ d))
           (is_block (ms * 2 ^ d) x y (leaf_entry transposed bi ms N A B)).
  Proof.
    intros HA HB Hms Hbr Hok Hx Hy.
    destruct (distribute_correct N A B transposed bi br HA HB ms d path x y Hms Hbr Hok Hx Hy) as (C&HC&Hr).
    destruct (Hr ∅) as (m'&Hr'). eapply always_intro; [apply distribute_drf|exact Hr'|exact HC].
  Qed.
  Lemma distribute_always_exact `{!Exact T} transposed bi br ms d path x y :
    length A = N * N -> length B = N * N ->
    ms <= br -> d = 0 \/ br < 2 * ms -> leaf_ok transposed bi ms N ->
    x + ms * 2 ^ d <= N -> y + ms * 2 ^ d <= N ->
    always (distribute_recursively N A B transposed bi br path x y (ms * 2 ^ d))
           (is_block (ms * 2 ^ d) x y (pentry transposed N A B)).
  Proof.
    intros HA HB Hms Hbr Hok Hx Hy. eapply must_mono; [|by apply distribute_always].
    intros C m HC. simpl in *. eapply is_matrix_ext; [|exact HC]. intros. by apply leaf_entry_exact.
  Qed.
  Lemma single_always transposed bi br ms d reps :
    length A = N * N -> length B = N * N ->
    N = ms * 2 ^ d -> ms <= br -> d = 0 \/ br < 2 * ms -> leaf_ok transposed bi ms N -> 0 < reps ->
    always (single_matrix_multiply N A B transposed bi br reps)
           (is_matrix N (leaf_entry transposed bi ms N A B)).
  Proof.
    intros HA HB HN Hms Hbr Hok Hreps.
    destruct (single_run N A B transposed bi br HA HB ms d reps HN Hms Hbr Hok) as (C&m&Hr&HC).
    rewrite decide_False in HC by lia. eapply always_intro; [apply single_drf|exact Hr|exact HC].
  Qed.
  Lemma single_always_exact `{!Exact T} transposed bi br ms d reps :
    length A = N * N -> length B = N * N ->
    N = ms * 2 ^ d -> ms <= br -> d = 0 \/ br < 2 * ms -> leaf_ok transposed bi ms N -> 0 < reps ->
    always (single_matrix_multiply N A B transposed bi br reps)
           (is_matrix N (pentry transposed N A B)).
  Proof.
    intros HA HB HN Hms Hbr Hok Hreps. eapply must_mono; [|by eapply single_always].
    intros C m HC. simpl in *. eapply is_matrix_ext; [|exact HC]. intros. by apply leaf_entry_exact.
  Qed.
  Lemma zeros_is_zero : is_zero N (replicate (N * N) (nzero : T)).
  Proof.
    split; [by rewrite replicate_length|]. intros i j Hi Hj. apply lookup_replicate_2. by apply mixed_lt.
  Qed.
  Lemma single_no_reps transposed bi br :
    always (single_matrix_multiply N A B transposed bi br 0) (is_zero N).
  Proof. eapply always_intro; [apply single_drf|reflexivity|]. apply zeros_is_zero. Qed.
  Lemma single_zero_always transposed bi reps :
    always (single_matrix_multiply N A B transposed bi 0 reps) (is_zero N).
  Proof.
    destruct (single_zero_run N A B transposed bi reps) as (m&Hr).
    eapply always_intro; [apply single_drf|exact Hr|apply zeros_is_zero].
  Qed.
  Lemma odd_tail_always C transposed bi br path x y n :
    br < 2 * n + 1 ->
    may_return (distribute_recursively N A B transposed bi br path x y (2 * n + 1)) C ->
    length C = (2 * n + 1) * (2 * n + 1) /\
    forall p, 2 * n * (2 * n) <= p < (2 * n + 1) * (2 * n + 1) -> C !! p = Some nzero.
  Proof.
    intros Hbr (m'&Hs). apply drf_return in Hs; [|apply distribute_drf].
    by eapply odd_tail.
  Qed.
  Lemma odd_contents_always transposed bi br ms d path x y n :
    length A = N * N -> length B = N * N ->
    ms <= br -> d = 0 \/ br < 2 * ms -> leaf_ok transposed bi ms N ->
    n = ms * 2 ^ d -> br < 2 * n + 1 -> x + (2 * n + 1) <= N -> y + (2 * n + 1) <= N ->
    always (distribute_recursively N A B transposed bi br path x y (2 * n + 1))
      (fun C => length C = (2 * n + 1) * (2 * n + 1) /\
        (forall i j, i < 2 * n -> j < 2 * n ->
           C !! (i * (2 * n) + j) = Some (leaf_entry transposed bi ms N A B (x + i) (y + j))) /\
        (forall p, 2 * n * (2 * n) <= p < (2 * n + 1) * (2 * n + 1) -> C !! p = Some nzero)).
  Proof.
    intros HA HB Hms Hbr Hok Hn Hb Hx Hy.
    destruct (odd_run N A B transposed bi br HA HB ms d path x y n Hms Hbr Hok Hn Hb Hx Hy) as (C&H1&H2&H3&m'&Hr).
    eapply always_intro; [apply distribute_drf|exact Hr|done].
  Qed.
End Always.

Lemma dot_const_pos (f : nat -> Z) n : (forall k, f k = 1%Z) -> dot f (seq 0 n) = Z.of_nat n.
Proof.
  intros Hf. induction n as [|n IH]; [done|]. rewrite seq_S, dot_snoc, IH, Hf. simpl. lia.
Qed.
Lemma odd_wrong N transposed bi br path x y n :
  br < 2 * n + 1 -> x + (2 * n + 1) <= N -> y + (2 * n + 1) <= N ->
  exists A B : list Z, length A = N * N /\ length B = N * N /\
    forall C, may_return (distribute_recursively N A B transposed bi br path x y (2 * n + 1)) C ->
      ~ is_block (2 * n + 1) x y (pentry transposed N A B) C.
Proof.
  intros Hbr Hx Hy. exists (replicate (N * N) 1%Z), (replicate (N * N) 1%Z).
  split_and!; [apply replicate_length..|]. intros C Hret HC.
  apply odd_tail_always in Hret as [Hl Ht]; [|done].
  destruct HC as [_ HC]. specialize (HC (2 * n) (2 * n) ltac:(lia) ltac:(lia)).
  assert (2 * n * (2 * n + 1) + 2 * n < (2 * n + 1) * (2 * n + 1)) by (apply mixed_lt; lia).
  rewrite Ht in HC by lia.
  assert (He : forall i j, i < N -> j < N -> ent N (replicate (N * N) 1%Z) i j = 1%Z).
  { intros i j Hi Hj. apply ent_eq. apply lookup_replicate_2. by apply mixed_lt. }
  assert (pentry transposed N (replicate (N * N) 1%Z) (replicate (N * N) 1%Z) (x + 2 * n) (y + 2 * n) = Z.of_nat N) as Hp.
  { unfold pentry, prod_t_entry, prod_entry. destruct transposed.
    - rewrite (dot_ext _ (fun _ => 1%Z)); [by apply dot_const_pos|]. intros k Hk%elem_of_seq. rewrite !He by lia. done.
    - rewrite (dot_ext _ (fun _ => 1%Z)); [by apply dot_const_pos|]. intros k Hk%elem_of_seq. rewrite !He by lia. done. }
  rewrite Hp in HC. injection HC as HC. simpl in HC. lia.
Qed.
