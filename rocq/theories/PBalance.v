(** Proofs about the balance of schedules. *)
From Coq Require Import ZArith Reals Psatz.
From Flocq Require Import Core IEEE754.Binary IEEE754.Bits.
From Verif Require Import Spec Conc MSchedule SpecSched SpecBalance Tools PSchedule MCeil MDouble MReport MBalance PCeil PDouble PReport SpecRound.
Local Open Scope Z_scope.

(** * What a split does to the number of packages *)
Lemma split_rows s imax j imin s' : split_package s imax j imin = Ok s' ->
  exists wm, all_work s !! imax = Some wm /\ (0 < length wm)%nat /\
  forall k ws', all_work s' !! k = Some ws' -> exists ws, all_work s !! k = Some ws /\
    (if decide (k = imax) then 2 <= length ws' else if decide (k = imin) then 2 <= length ws' else ws' = ws)%nat.
Proof.
  unfold split_package, lget. destruct (all_work s !! imax) as [wm|] eqn:Em; [|done]. cbn [rbind].
  destruct (wm !! j) as [w|] eqn:Ew; [|done]. cbn [rbind].
  destruct (total_work s !! imax); [|done]. cbn [rbind].
  match goal with |- context [match ?x with _ => _ end] => destruct x end; [|done]. cbn [rbind]. intros [= <-]. cbn [all_work].
  assert (Hj : (j < length wm)%nat) by (by eapply lookup_lt_Some).
  exists wm. split; [done|]. split; [lia|]. intros k ws' Hk.
  destruct (decide (k = imax)) as [->|H1].
  - exists wm. split; [done|]. destruct (decide (imax = imin)) as [<-|Hne].
    + rewrite !list_lookup_alter, list_lookup_insert in Hk by (by eapply lookup_lt_Some).
      cbn in Hk. injection Hk as <-. rewrite !app_length. cbn. lia.
    + do 2 rewrite list_lookup_alter_ne in Hk by done. rewrite !list_lookup_alter, list_lookup_insert in Hk by (by eapply lookup_lt_Some).
      cbn in Hk. injection Hk as <-. rewrite !app_length, length_delete by (by eexists). cbn. lia.
  - destruct (decide (k = imin)) as [->|H2].
    + rewrite !list_lookup_alter in Hk. do 2 rewrite list_lookup_alter_ne in Hk by done. rewrite list_lookup_insert_ne in Hk by done.
      destruct (all_work s !! imin) as [ws|]; [|done]. exists ws. split; [done|]. cbn in Hk. injection Hk as <-. rewrite !app_length. cbn. lia.
    + do 4 rewrite list_lookup_alter_ne in Hk by done. rewrite list_lookup_insert_ne in Hk by done. by exists ws'.
Qed.

Section Balance.
  Context (N mws maxd : Z) (rel : Z -> Z -> bool).
  Context (HN : 0 <= N) (HN2 : N * N < 2 ^ 62) (Hmws : 0 <= mws).
  Local Notation step := (sched_step mws maxd rel).

  Lemma step_rows s s' : step s = Ok (Some s') -> exists imax imin wm, all_work s !! imax = Some wm /\ (0 < length wm)%nat /\
    forall k ws', all_work s' !! k = Some ws' -> exists ws, all_work s !! k = Some ws /\
      (if decide (k = imax) then 2 <= length ws' else if decide (k = imin) then 2 <= length ws' else ws' = ws)%nat.
  Proof.
    unfold sched_step. destruct (fulfills_constraints maxd rel (total_work s)) as [[|]|]; try done. cbn [rbind].
    destruct (extremes_of (total_work s)) as [e|]; [|done]. cbn [rbind].
    destruct (find_package _ _ _ _ _) as [[[i j]|]|]; try done. cbn [rbind].
    destruct (split_package s i j (e_minidx e)) as [s2|] eqn:E; [|done]. cbn [rbind]. intros [= <-].
    exists i, (e_minidx e). exact (split_rows _ _ _ _ _ E).
  Qed.
  Definition paired (s : sched) : Prop := forall k ws, all_work s !! k = Some ws -> ws = [] \/ (2 <= length ws)%nat.
  Lemma step_paired s s' : paired s -> step s = Ok (Some s') -> paired s'.
  Proof.
    intros Hp (imax & imin & wm & _ & _ & H)%step_rows k ws' Hk. destruct (H k ws' Hk) as (ws & Hw & Hc).
    repeat case_decide; [by right|by right|]. subst. exact (Hp _ _ Hw).
  Qed.
  Lemma init_paired n s s' : sched_init N n = Ok s -> step s = Ok (Some s') -> paired s'.
  Proof.
    destruct n as [|n]; [done|]. intros [= <-] (imax & imin & wm & Hm & Hl & H)%step_rows k ws' Hk. cbn [all_work] in *.
    destruct (H k ws' Hk) as (ws & Hw & Hc). repeat case_decide; [by right|by right|]. subst. left.
    destruct imax as [|imax].
    - destruct k as [|k]; [done|]. by apply lookup_replicate in Hw as [-> _].
    - apply lookup_replicate in Hm as [-> _]. cbn in Hl. lia.
  Qed.
  Lemma reach_paired n s : reach N mws maxd rel n s -> sched_init N n = Ok s \/ paired s.
  Proof.
    intros (s0 & H0 & Hr). inversion Hr as [|? s1 ? H1 H2]; subst; [by left|right].
    pose proof (init_paired _ _ _ H0 H1) as Hp. clear -H2 Hp. induction H2 as [|s1 s2 s3 H1 H2 IH]; [done|].
    apply IH. exact (step_paired _ _ Hp H1).
  Qed.
  Lemma schedule_pairs fuel L all : create_schedule N mws maxd rel fuel L = Ok all ->
    all = [Work 0 0 N] :: replicate (L - 1) [] \/ forall ws, ws ∈ all -> ws = [] \/ (2 <= length ws)%nat.
  Proof.
    unfold create_schedule. destruct (create_schedule_state N mws maxd rel fuel L) as [s|] eqn:E; [|done]. intros [= <-].
    apply state_reach in E as [Hr _]. destruct (reach_paired _ _ Hr) as [Hi|Hp].
    - left. destruct L as [|n]; [done|]. injection Hi as <-. cbn. by rewrite Nat.sub_0_r.
    - right. intros ws [k Hk]%elem_of_list_lookup. exact (Hp k ws Hk).
  Qed.

  (** * How many localities can be busy *)
  Lemma area_concat_le (all : list (list work)) (total : list Z) : length all = length total ->
    (forall i t ws, total !! i = Some t -> all !! i = Some ws -> area ws <= t) -> area (concat all) <= sumZ total.
  Proof.
    clear. revert total. induction all as [|ws all IH]; intros [|t total]; simpl; try done. intros [= Hl] Hr. rewrite area_app.
    pose proof (Hr 0%nat t ws eq_refl eq_refl). pose proof (IH total Hl (fun i => Hr (S i))). lia.
  Qed.
  Lemma area_min m ws : 0 <= m -> (forall w, w ∈ ws -> m <= wN w) -> Z.of_nat (length ws) * (m * m) <= area ws.
  Proof.
    clear. intros Hm. induction ws as [|w ws IH]; intros Hw; [cbn; lia|].
    pose proof (Hw w ltac:(left)) as H0. specialize (IH (fun v Hv => Hw v (elem_of_list_further _ _ _ Hv))).
    cbn [length]. unfold area. cbn [foldr]. fold (area ws). rewrite Nat2Z.inj_succ. nia.
  Qed.
  Lemma area_busy m all : 0 <= m -> (forall w, w ∈ concat all -> m <= wN w) -> (forall ws, ws ∈ all -> ws = [] \/ (2 <= length ws)%nat) ->
    2 * Z.of_nat (busy all) * (m * m) <= area (concat all).
  Proof.
    clear. intros Hm. induction all as [|ws all IH]; intros Hw Hp; [cbn; lia|]. cbn [concat]. rewrite area_app.
    assert (IH' := IH (fun w Hc => Hw w ltac:(cbn [concat]; apply elem_of_app; by right)) (fun v Hv => Hp v (elem_of_list_further _ _ _ Hv))).
    unfold busy in *. rewrite filter_cons. destruct (Hp ws ltac:(left)) as [->|Hl].
    - rewrite decide_False by (intros H; by apply H). cbn [area foldr]. lia.
    - rewrite decide_True by (intros ->; cbn in Hl; lia). cbn [length]. rewrite Nat2Z.inj_succ.
      pose proof (area_min m ws Hm (fun w Hc => Hw w ltac:(cbn [concat]; apply elem_of_app; by left))). nia.
  Qed.
  Lemma busy_nil n : busy (replicate n []) = 0%nat.
  Proof. clear. unfold busy. induction n; [done|]. cbn [replicate]. rewrite filter_cons, decide_False; [done|]. intros H. by apply H. Qed.
  Lemma busy_one w n : (busy ([w] :: replicate n []) <= 1)%nat.
  Proof. clear. unfold busy. rewrite filter_cons, decide_True by done. cbn [length]. pose proof (busy_nil n) as Hb. unfold busy in Hb. rewrite Hb. lia. Qed.
  Lemma schedule_busy fuel L all m : create_schedule N mws maxd rel fuel L = Ok all ->
    0 <= m -> (forall n, size_of N mws n -> m <= n) -> (busy all <= 1)%nat \/ 2 * Z.of_nat (busy all) * (m * m) <= N * N.
  Proof.
    intros E Hm Hs. destruct (schedule_pairs _ _ _ E) as [->|Hp].
    - left. apply busy_one.
    - right. revert E. unfold create_schedule. destruct (create_schedule_state N mws maxd rel fuel L) as [s|] eqn:E; [|done]. intros [= <-].
      apply state_reach in E as [Hr _]. pose proof (reach_inv N mws maxd rel HN HN2 Hmws _ _ Hr) as Hi.
      pose proof (area_concat_le _ _ (inv_len _ _ _ Hi) (inv_area _ _ _ Hi)) as Ha. rewrite (inv_sum _ _ _ Hi) in Ha.
      pose proof (area_busy m (all_work s) Hm (fun w Hw => Hs _ (inv_size _ _ _ Hi w Hw)) Hp). lia.
  Qed.
  Lemma size_half n : mws < N -> size_of N mws n -> (mws + 1) / 2 <= n.
  Proof.
    clear -HN Hmws. intros Hlt (k & Hk & -> & [->|H]).
    - cbn. rewrite Z.div_1_r. apply Z.div_le_upper_bound; lia.
    - destruct (decide (k = 0)) as [->|Hk0]; [cbn; rewrite Z.div_1_r; apply Z.div_le_upper_bound; lia|].
      replace (2 ^ k) with (2 ^ (k - 1) * 2) by (rewrite Z.mul_comm, <-Z.pow_succ_r by lia; f_equal; lia).
      rewrite <-Z.div_div by (try lia; apply Z.pow_nonzero; lia). apply Z.div_le_mono; lia.
  Qed.
  Lemma size_chain e n : N = 2 ^ Z.of_nat e * mws -> size_of N mws n -> mws <= n.
  Proof.
    clear -HN Hmws. intros -> (k & Hk & -> & [->|H]).
    - cbn. rewrite Z.div_1_r. assert (0 < 2 ^ Z.of_nat e) by (apply Z.pow_pos_nonneg; lia). nia.
    - destruct (decide (k <= Z.of_nat e)) as [Hle|Hgt].
      + replace (Z.of_nat e) with (k + (Z.of_nat e - k)) by lia. rewrite Z.pow_add_r by lia. rewrite <-Z.mul_assoc, Z.mul_comm, Z.div_mul by (apply Z.pow_nonzero; lia).
        assert (0 < 2 ^ (Z.of_nat e - k)) by (apply Z.pow_pos_nonneg; lia). nia.
      + exfalso. replace (k - 1) with (Z.of_nat e + (k - 1 - Z.of_nat e)) in H by lia. rewrite Z.pow_add_r in H by lia.
        rewrite Z.div_mul_cancel_l in H by (apply Z.pow_nonzero; lia).
        assert (mws / 2 ^ (k - 1 - Z.of_nat e) <= mws); [|lia]. apply Z.div_le_upper_bound; [apply Z.pow_pos_nonneg; lia|].
        assert (0 < 2 ^ (k - 1 - Z.of_nat e)) by (apply Z.pow_pos_nonneg; lia). nia.
  Qed.

  (** * Small matrices stay on one locality *)
  Lemma schedule_small fuel L : N <= mws -> (0 < L)%nat -> (0 < fuel)%nat ->
    create_schedule N mws maxd rel fuel L = Ok ([Work 0 0 N] :: replicate (L - 1) []).
  Proof.
    intros Hs HL Hf. unfold create_schedule, create_schedule_state. destruct (sched_init N L) as [s0|] eqn:E0; [|by destruct L; [lia|]].
    cbn [rbind]. pose proof (init_inv N mws HN HN2 _ _ E0) as Hi.
    destruct fuel as [|fuel]; [lia|]. cbn [sched_loop].
    destruct (step_cases N mws maxd rel HN2 Hmws s0 Hi) as [[-> _]|(s1 & w & _ & _ & ((rest & Hc & _) & Hw & _) & _)].
    - cbn [rbind]. destruct L as [|n]; [lia|]. injection E0 as <-. cbn. by rewrite Nat.sub_0_r.
    - exfalso. assert (Hin : w ∈ concat (all_work s0)) by (rewrite Hc; left).
      pose proof (inv_in _ _ _ Hi) as Hf'. rewrite Forall_forall in Hf'. destruct (Hf' w Hin) as (H1 & H2 & H3 & H4 & H5). lia.
  Qed.

  (** * The exit condition *)
  Lemma schedule_factor fuel L s : create_schedule_state N mws maxd rel fuel L = Ok s ->
    balanced maxd rel (total_work s) \/
    exists mn mx, is_min mn (total_work s) /\ is_max mx (total_work s) /\
      ((mx < 2 * mn /\ Z.of_nat L * mx < 2 * (N * N)) \/
       (forall i ws w, total_work s !! i = Some mx -> all_work s !! i = Some ws -> w ∈ ws -> wN w <= mws)).
  Proof.
    intros E. pose proof E as E'. apply state_reach in E' as [Hr _].
    pose proof (reach_inv N mws maxd rel HN HN2 Hmws _ _ Hr) as Hi.
    assert (HL : length (total_work s) = L).
    { rewrite <-(inv_len _ _ _ Hi). apply (schedule_length N mws maxd rel HN HN2 Hmws fuel). unfold create_schedule. by rewrite E. }
    destruct (schedule_exit N mws maxd rel HN HN2 Hmws fuel L s E) as [Hb|(mn & mx & Hmn & Hmx & Hst)]; [by left|right].
    exists mn, mx. split; [done|]. split; [done|].
    destruct (decide (Exists (fun p : Z * list work => p.1 = mx /\ Exists (fun w => mws < wN w) p.2) (zip (total_work s) (all_work s)))) as [Hex|Hno].
    - left. apply Exists_exists in Hex as ((t & ws) & Hin & Ht & Hw). cbn in Ht, Hw. subst t.
      apply elem_of_list_lookup in Hin as [i Hin]. apply lookup_zip_with_Some in Hin as (t & ws' & [= <- <-] & Ht & Hws).
      apply Exists_exists in Hw as (w & Hw & Hlt). specialize (Hst i ws w Ht Hws Hw Hlt).
      pose proof (inv_area _ _ _ Hi _ _ _ Ht Hws) as Ha. pose proof (area_elem _ _ Hw) as Hwa.
      pose proof (proj2 Hmx _ (proj1 Hmn)). pose proof (half_bounds (wN w * wN w)) as Hh. unfold diff_after in Hst.
      assert (0 <= wN w * wN w) as Hq by nia.
      assert (mx < 2 * mn) as H2 by (revert Hst Hh Hwa Ha Hq; generalize (wN w * wN w); intros q; generalize (q / 2); intros; lia).
      split; [exact H2|]. pose proof (inv_sum _ _ _ Hi) as Hsum. rewrite <-HL.
      assert (Hall : forall l, (forall t, t ∈ l -> mn <= t) -> Z.of_nat (length l) * mn <= sumZ l).
      { clear. induction l as [|t l IH]; intros Hl; [cbn; lia|]. cbn [length sumZ foldr]. fold (sumZ l). rewrite Nat2Z.inj_succ.
        pose proof (Hl t ltac:(left)). pose proof (IH (fun t' H => Hl t' (elem_of_list_further _ _ _ H))). lia. }
      specialize (Hall _ (proj2 Hmn)). rewrite Hsum in Hall. pose proof (inv_pos _ _ _ Hi). nia.
    - right. intros i ws w Ht Hws Hw. destruct (decide (mws < wN w)) as [Hlt|]; [|lia]. exfalso. apply Hno.
      apply Exists_exists. exists (mx, ws). split; [|split; [done|]; apply Exists_exists; by exists w].
      apply elem_of_list_lookup. exists i. apply lookup_zip_with_Some. by exists mx, ws.
  Qed.
End Balance.
