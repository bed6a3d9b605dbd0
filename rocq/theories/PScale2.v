(** Proofs about schedules drawn to another scale: the minimum package size, the
    balance criterion, and schedules for powers of two. *)
From stdpp Require Import list.
From Coq Require Import ZArith Lia Reals.
From Verif Require Import MSchedule SpecSched PSchedule SpecScale PScale PPseudo.
Local Open Scope Z_scope.

(** A smaller minimum package size changes nothing if it was never met. *)
Section MinSize.
  Context (N mws1 mws2 maxd : Z) (rel : Z -> Z -> bool).
  Context (HN : 0 <= N) (HN2 : N * N < 2 ^ 62) (H1 : 0 <= mws1) (H2 : mws1 <= mws2).

  Definition large (s : sched) : Prop := forall w, w ∈ concat (all_work s) -> mws2 < wN w.

  Lemma pick_loop_same mx mn ws j sm idx : (forall w, w ∈ ws -> mws2 < wN w) ->
    pick_loop mws1 mx mn ws j sm idx = pick_loop mws2 mx mn ws j sm idx.
  Proof.
    revert j sm idx. induction ws as [|w ws IH]; intros j sm idx Hw; [done|]. cbn [pick_loop].
    assert (mws2 < wN w) by (apply Hw; by left). assert (forall v, v ∈ ws -> mws2 < wN v) as Hws by (intros v Hv; apply Hw; by right).
    destruct (Z.leb_spec (wN w) mws1); [lia|]. destruct (Z.leb_spec (wN w) mws2); [lia|].
    destruct (work_difference mx mn w) as [d|]; [|done]. cbn [rbind]. by case_match; apply IH.
  Qed.
  Lemma find_same all mx mn maxs : (forall w, w ∈ concat all -> mws2 < wN w) ->
    find_package mws1 all mx mn maxs = find_package mws2 all mx mn maxs.
  Proof.
    intros Hw. induction maxs as [|i maxs IH]; [done|]. cbn [find_package]. unfold lget. destruct (all !! i) as [ws|] eqn:E; [|done].
    cbn [rbind]. unfold pick. rewrite pick_loop_same; [by rewrite IH|]. intros w Hin. apply Hw. by eapply elem_concat.
  Qed.
  Lemma step_same s : large s -> sched_step mws1 maxd rel s = sched_step mws2 maxd rel s.
  Proof.
    intros Hl. unfold sched_step. destruct (fulfills_constraints maxd rel (total_work s)) as [[]|]; [done| |done]. cbn [rbind].
    destruct (extremes_of (total_work s)) as [e|]; [|done]. cbn [rbind]. by rewrite find_same.
  Qed.
  Lemma step_large s s' : inv N mws2 s -> sched_step mws2 maxd rel s = Ok (Some s') -> large s' -> large s.
  Proof.
    intros Hi E Hl. destruct (step_cases N mws2 maxd rel HN2 ltac:(lia) s Hi) as [[E' _]|(s2&v&E'&_&((rest&Hc&Hc')&Hs&Hv)&_)]; rewrite E' in E; [done|].
    injection E as ->. intros w Hw. rewrite Hc in Hw. apply elem_of_cons in Hw as [->|Hw]; [done|]. apply Hl. rewrite Hc'. apply elem_of_app. by right.
  Qed.
  Lemma loop_same fuel s s' : inv N mws2 s -> sched_loop mws2 maxd rel fuel s = Ok s' -> large s' ->
    large s /\ sched_loop mws1 maxd rel fuel s = Ok s'.
  Proof.
    revert s. induction fuel as [|fuel IH]; intros s Hi E Hl; [done|]. cbn [sched_loop] in E |- *.
    destruct (sched_step mws2 maxd rel s) as [[s2|]|] eqn:Es; cbn [rbind] in E; [| |done].
    - destruct (IH s2) as [Hl2 E2]; [|done|done|].
      { eapply step_inv; [exact HN2| |exact Hi|exact Es]. lia. }
      pose proof (step_large _ _ Hi Es Hl2) as Hls. split; [done|]. rewrite step_same by done. by rewrite Es.
    - injection E as <-. split; [done|]. rewrite step_same by done. by rewrite Es.
  Qed.
  Lemma state_same fuel n s : create_schedule_state N mws2 maxd rel fuel n = Ok s -> large s ->
    create_schedule_state N mws1 maxd rel fuel n = Ok s.
  Proof.
    unfold create_schedule_state. destruct (sched_init N n) as [s0|] eqn:E; [|done]. cbn [rbind]. intros El Hl.
    apply (loop_same fuel s0 s); try done. eapply init_inv; [exact HN|exact HN2|exact E].
  Qed.
End MinSize.

(** Without the criterion the run only stops for lack of a package. *)
Lemma fulfills_none maxd rel N total : N * N < 2 ^ 62 -> (0 < length total)%nat -> (forall t, t ∈ total -> 0 <= t <= N * N) ->
  fulfills_constraints maxd rel total = Ok false -> fulfills_constraints 0 (fun _ _ => false) total = Ok false.
Proof.
  intros HN2 Hl Ht _. destruct (constraints_ok N 0 (fun _ _ => false) HN2 total Hl Ht) as (b&->&Hb). f_equal.
  destruct b; [|done]. destruct (proj1 Hb eq_refl) as (mn&mx&Hmn&Hmx&[H|[_ H]]); [|done]. pose proof (proj2 Hmx _ (proj1 Hmn)). lia.
Qed.
Section Exhaust.
  Context (N mws maxd : Z) (rel : Z -> Z -> bool).
  Context (HN : 0 <= N) (HN2 : N * N < 2 ^ 62) (Hmws : 0 <= mws).

  Lemma loop_exhaust fuel s s' : inv N mws s -> sched_loop mws maxd rel fuel s = Ok s' ->
    balanced maxd rel (total_work s') \/ sched_loop mws 0 (fun _ _ => false) fuel s = Ok s'.
  Proof.
    revert s. induction fuel as [|fuel IH]; intros s Hi E; [done|]. cbn [sched_loop] in E |- *.
    pose proof (fun s2 => step_inv N mws maxd rel HN2 Hmws s s2 Hi) as Hinv.
    unfold sched_step in E, Hinv |- *.
    destruct (constraints_ok N maxd rel HN2 (total_work s) (inv_pos _ _ _ Hi) (fun t => inv_total N mws s t Hi)) as (b&Eb&Hb).
    rewrite Eb in E, Hinv. destruct b; cbn [rbind] in E, Hinv.
    { left. injection E as <-. by apply Hb. }
    rewrite (fulfills_none maxd rel N); [|done|apply (inv_pos _ _ _ Hi)|intros t; by apply (inv_total N mws)|done]. cbn [rbind].
    destruct (extremes_of (total_work s)) as [e|]; [|done]. cbn [rbind] in E, Hinv |- *.
    destruct (find_package mws (all_work s) (e_max e) (e_min e) (e_maxs e)) as [[[i j]|]|]; cbn [rbind] in E, Hinv |- *; [|by right|done].
    destruct (split_package s i j (e_minidx e)) as [s2|]; [|done]. cbn [rbind] in E, Hinv |- *. apply IH; [|done]. by apply Hinv.
  Qed.
  Lemma state_exhaust fuel n s : create_schedule_state N mws maxd rel fuel n = Ok s ->
    balanced maxd rel (total_work s) \/ create_schedule_state N mws 0 (fun _ _ => false) fuel n = Ok s.
  Proof.
    unfold create_schedule_state. destruct (sched_init N n) as [s0|] eqn:E; [|done]. cbn [rbind]. apply loop_exhaust.
    eapply init_inv; [exact HN|exact HN2|exact E].
  Qed.
  Lemma state_fuel fuel fuel' n s s' : create_schedule_state N mws maxd rel fuel n = Ok s ->
    create_schedule_state N mws maxd rel fuel' n = Ok s' -> s = s'.
  Proof.
    unfold create_schedule_state. destruct (sched_init N n) as [s0|] eqn:E; [|done]. cbn [rbind]. intros E1 E2.
    destruct (Nat.le_ge_cases fuel fuel') as [H|H].
    - rewrite (loop_mono _ _ _ _ _ _ _ H E1) in E2. by injection E2.
    - rewrite (loop_mono _ _ _ _ _ _ _ H E2) in E1. by injection E1.
  Qed.

  (** * Powers of two *)
  Lemma size_exact n : even_chain N mws -> size_of N mws n -> exists k, 0 <= k /\ N = 2 ^ k * n.
  Proof.
    intros Hev (k&Hk&->&Hs). exists k. split; [done|]. revert Hs. pattern k. apply natlike_ind; [|clear k Hk|done].
    - intros _. cbn. rewrite Z.div_1_r. lia.
    - intros k Hk IH [H|H]; [lia|]. replace (Z.succ k - 1) with k in H by lia.
      assert (k = 0 \/ mws < N / 2 ^ (k - 1)) as Hk'.
      { destruct (decide (k = 0)); [by left|right]. eapply Z.lt_le_trans; [exact H|].
        apply Z.div_le_compat_l; [done|]. split; [apply Z.pow_pos_nonneg; lia|]. apply Z.pow_le_mono_r; lia. }
      specialize (IH Hk'). destruct (Hev (N / 2 ^ k)) as [q Hq]; [by exists k|done|].
      rewrite Z.pow_succ_r by done. rewrite (Z.mul_comm 2), <- Z.div_div by (try lia; apply Z.pow_nonzero; lia).
      rewrite Hq, Z.div_mul by lia. rewrite IH at 1. rewrite Hq. ring.
  Qed.
  Lemma sizes_divide n m : even_chain N mws -> size_of N mws n -> size_of N mws m -> 0 < n <= m -> (n | m).
  Proof.
    intros Hev (k&Hk&Ek)%size_exact (l&Hl&El)%size_exact Hnm; [|done|done].
    assert (l <= k) as Hlk.
    { destruct (Z.le_gt_cases l k); [done|]. assert (2 ^ k < 2 ^ l) by (apply Z.pow_lt_mono_r; lia).
      assert (0 < 2 ^ k) by (apply Z.pow_pos_nonneg; lia). nia. }
    exists (2 ^ (k - l)). assert (0 < 2 ^ l) by (apply Z.pow_pos_nonneg; lia).
    apply (Z.mul_reg_l _ _ (2 ^ l)); [lia|]. rewrite <- El, Ek at 1. rewrite Z.mul_assoc, <- Z.pow_add_r by lia. do 2 f_equal. lia.
  Qed.
  Lemma smallest (ws : list work) : ws <> [] -> exists w, w ∈ ws /\ forall v, v ∈ ws -> wN w <= wN v.
  Proof.
    clear. induction ws as [|w ws IH]; [done|]. intros _. destruct ws as [|v ws].
    - exists w. split; [left|]. intros v ->%elem_of_list_singleton. lia.
    - destruct IH as (m&Hm&Hmin); [done|]. destruct (Z.le_gt_cases (wN w) (wN m)).
      + exists w. split; [left|]. intros x [->|Hx]%elem_of_cons; [lia|]. specialize (Hmin x Hx). lia.
      + exists m. split; [by right|]. intros x [->|Hx]%elem_of_cons; [lia|]. by apply Hmin.
  Qed.
  Lemma area_divide n ws : (forall w, w ∈ ws -> (n | wN w)) -> (n * n | area ws).
  Proof.
    clear. induction ws as [|w ws IH]; intros Hw; [by exists 0|]. unfold area. cbn [foldr]. fold (area ws).
    apply Z.divide_add_r; [|apply IH; intros v Hv; apply Hw; by right]. destruct (Hw w) as [q ->]; [left|]. exists (q * q). ring.
  Qed.
  Lemma sum_bounds (l : list Z) mn mx : is_min mn l -> is_max mx l ->
    Z.of_nat (length l) * mn <= sumZ l /\ sumZ l <= Z.of_nat (length l) * mx /\ (mn < mx -> sumZ l < Z.of_nat (length l) * mx).
  Proof.
    clear. intros [Hmn1 Hmn] [_ Hmx].
    assert (forall l : list Z, (forall t, t ∈ l -> mn <= t) -> (forall t, t ∈ l -> t <= mx) ->
      Z.of_nat (length l) * mn <= sumZ l /\ sumZ l <= Z.of_nat (length l) * mx /\ (mn ∈ l -> mn < mx -> sumZ l < Z.of_nat (length l) * mx)) as H.
    { clear. induction l as [|t l IH]; intros H1 H2; [split_and!; try done; by intros ?%elem_of_nil|].
      destruct IH as (I1&I2&I3); [intros x Hx; apply H1; by right|intros x Hx; apply H2; by right|].
      pose proof (H1 t ltac:(left)). pose proof (H2 t ltac:(left)). unfold sumZ in *. cbn [foldr length]. rewrite Nat2Z.inj_succ.
      split_and!; [nia|nia|]. intros [<-|Hin]%elem_of_cons Hlt; [nia|]. specialize (I3 Hin Hlt). nia. }
    destruct (H l Hmn Hmx) as (A&B&C). split_and!; try done. by apply C.
  Qed.
  Lemma perfect_all (l : list Z) m : is_min m l -> is_max m l -> forall t, t ∈ l -> Z.of_nat (length l) * t = sumZ l.
  Proof.
    intros Hmn Hmx t Ht. destruct (sum_bounds l m m Hmn Hmx) as (A&B&_). pose proof (proj2 Hmn t Ht). pose proof (proj2 Hmx t Ht).
    replace t with m by lia. lia.
  Qed.
  (** The arithmetic of the argument: P and L powers of two *)
  Lemma no_gap i k m : 0 <= i -> 0 <= k -> 1 <= m -> 2 ^ k < 2 ^ i * m -> 2 ^ i * (2 * m - 1) < 2 * 2 ^ k -> False.
  Proof.
    clear. intros Hi Hk Hm H1 H2. assert (0 < 2 ^ i) by (apply Z.pow_pos_nonneg; lia). assert (0 < 2 ^ k) by (apply Z.pow_pos_nonneg; lia).
    destruct (Z.le_gt_cases i k).
    - replace k with (i + (k - i)) in H1, H2 by lia. rewrite Z.pow_add_r in H1, H2 by lia. set (q := 2 ^ (k - i)) in *.
      assert (q < m) by nia. nia.
    - assert (2 ^ Z.succ k <= 2 ^ i) as Hle by (apply Z.pow_le_mono_r; lia). rewrite Z.pow_succ_r in Hle by lia. nia.
  Qed.
  Lemma schedule_pow2 i fuel s : even_chain N mws -> create_schedule_state N mws maxd rel fuel (2 ^ i) = Ok s ->
    balanced maxd rel (total_work s) \/ (forall t, t ∈ total_work s -> 2 ^ Z.of_nat i * t = N * N) \/
    exists mx, is_max mx (total_work s) /\ forall k, total_work s !! k = Some mx -> exists ws w, all_work s !! k = Some ws /\ w ∈ ws /\ wN w <= mws.
  Proof.
    intros Hev E. pose proof E as E'. apply state_reach in E' as [Hr _].
    pose proof (reach_inv N mws maxd rel HN HN2 Hmws _ _ Hr) as Hi.
    pose proof (reach_len N mws maxd rel HN HN2 Hmws _ _ Hr) as [Hla Hlt].
    assert (HL : Z.of_nat (length (total_work s)) = 2 ^ Z.of_nat i) by (by rewrite Hlt, Nat2Z.inj_pow).
    destruct (schedule_exit N mws maxd rel HN HN2 Hmws fuel _ s E) as [Hb|(mn & mx & Hmn & Hmx & Hst)]; [by left|right].
    destruct (decide (mn = mx)) as [->|Hne].
    { left. intros t Ht. rewrite <- HL, <- (inv_sum _ _ _ Hi). by apply (perfect_all _ mx). }
    pose proof (proj2 Hmx _ (proj1 Hmn)) as Hle.
    destruct (decide (Forall (fun p : Z * list work => p.1 = mx -> Exists (fun w => wN w <= mws) p.2) (zip (total_work s) (all_work s)))) as [Hall|Hno].
    { right. exists mx. split; [done|]. intros k Hk. destruct (lookup_lt_is_Some_2 (all_work s) k) as [ws Hws].
      { rewrite Hla, <- Hlt. by eapply lookup_lt_Some. }
      rewrite Forall_lookup in Hall. specialize (Hall k (mx, ws)). rewrite lookup_zip_with, Hk, Hws in Hall. specialize (Hall eq_refl eq_refl).
      apply Exists_exists in Hall as (w&Hw&Hwn). by exists ws, w. }
    exfalso. apply not_Forall_Exists, Exists_exists in Hno as ((t&ws)&Hin&Hp); [|apply _]. cbn [fst snd] in Hp.
    apply elem_of_list_lookup in Hin as [k Hk]. apply lookup_zip_with_Some in Hk as (t'&ws'&[= <- <-]&Hkt&Hkw).
    destruct (decide (t = mx)) as [->|]; [|apply Hp; done].
    assert (Hbig : forall w, w ∈ ws -> mws < wN w).
    { intros w Hw. destruct (Z.le_gt_cases (wN w) mws); [|done]. exfalso. apply Hp. intros _. apply Exists_exists. by exists w. }
    pose proof (reach_rows_exact N mws maxd rel HN HN2 Hmws _ _ Hev Hr _ _ _ Hkt Hkw) as Harea.
    pose proof (inv_total N mws s mn Hi (proj1 Hmn)) as Hmn0.
    destruct (smallest ws) as (w0&Hw0&Hmin). { intros ->. cbn in Harea. lia. }
    assert (Hsz : forall w, w ∈ ws -> size_of N mws (wN w)).
    { intros w Hw. apply (inv_size _ _ _ Hi). by eapply elem_concat. }
    pose proof (Hst k ws w0 Hkt Hkw Hw0 (Hbig _ Hw0)) as Hd. unfold diff_after in Hd.
    set (n0 := wN w0) in *.
    assert (0 < n0) as Hn0. { pose proof (Hbig _ Hw0). unfold n0. lia. }
    assert (Hgap : 2 * (mx - mn) < n0 * n0). { pose proof (Z.mul_div_le (n0 * n0) 2 ltac:(lia)) as Hh. assert (0 <= n0 * n0 / 2) by (apply Z.div_pos; nia). clear -Hd Hh Hle H. set (h := n0 * n0 / 2) in *. clearbody h. lia. }
    destruct (area_divide n0 ws) as [m Hm].
    { intros w Hw. apply sizes_divide; [done|by apply Hsz|by apply Hsz|]. split; [done|]. by apply Hmin. }
    destruct (size_exact n0 Hev (Hsz _ Hw0)) as (e&He&HNe).
    destruct (sum_bounds _ _ _ Hmn Hmx) as (S1&_&S3). specialize (S3 ltac:(lia)). rewrite HL, (inv_sum _ _ _ Hi) in S1, S3.
    rewrite Harea in Hm. assert (HP : N * N = 2 ^ (e + e) * (n0 * n0)). { rewrite Z.pow_add_r by done. rewrite HNe. ring. }
    apply (no_gap (Z.of_nat i) (e + e) m); [lia|lia|nia| |].
    - rewrite HP, Hm in S3. nia.
    - rewrite HP in S1. nia.
  Qed.
End Exhaust.

(** * Sizes up to a factor *)
Lemma scaled_sizes c s : 0 < c -> forall w, w ∈ concat (all_work (scale c s)) -> exists v, v ∈ concat (all_work s) /\ w = scale_work c v.
Proof.
  intros _ w Hw. unfold scale in Hw. cbn [all_work] in Hw. rewrite <- concat_map in Hw.
  apply elem_of_list_In, in_map_iff in Hw as (v&<-&Hv). exists v. split; [by apply elem_of_list_In|done].
Qed.
Definition small_ok (L : nat) (s : sched) : bool :=
  forallb (fun w => 1 <? wN w) (concat (all_work s)) && forallb (fun t => Z.of_nat L * t =? (2 * Z.of_nat L) * (2 * Z.of_nat L)) (total_work s).
Lemma pow2_scaled e c mws maxd rel fuel s fuel0 s0 : let L := (2 ^ e)%nat in
  create_schedule_state (2 * Z.of_nat L) 1 0 (fun _ _ => false) fuel0 L = Ok s0 -> small_ok L s0 = true ->
  0 < c -> (2 * Z.of_nat L * c) * (2 * Z.of_nat L * c) < 2 ^ 62 -> 0 <= mws < 2 * c ->
  create_schedule_state (2 * Z.of_nat L * c) mws maxd rel fuel L = Ok s ->
  balanced maxd rel (total_work s) \/
  s = scale c s0 /\ forall t, t ∈ total_work s -> Z.of_nat L * t = (2 * Z.of_nat L * c) * (2 * Z.of_nat L * c).
Proof.
  intros L. assert (HL : Z.of_nat L = 2 ^ Z.of_nat e) by (unfold L; by rewrite Nat2Z.inj_pow). clearbody L.
  intros E0 [H1 H2]%andb_true_iff Hc HN2 Hm E. assert (0 <= 2 * Z.of_nat L) as HL0 by lia. assert (0 <= 2 * Z.of_nat L * c) as HN by nia.
  destruct (state_exhaust _ mws _ _ HN HN2 (proj1 Hm) _ _ _ E) as [Hb|E']; [by left|right].
  assert (E2 : create_schedule_state (2 * Z.of_nat L * c) (2 * c - 1) 0 (fun _ _ => false) fuel0 L = Ok (scale c s0)).
  { rewrite (Z.mul_comm _ c). rewrite (state_scale c (2 * Z.of_nat L) 1 (2 * c - 1) 0 0 (fun _ _ => false) (fun _ _ => false)); [by rewrite E0|done|done| |done| | | |].
    - by rewrite (Z.mul_comm c).
    - intros n. destruct (Z.leb_spec (c * n) (2 * c - 1)), (Z.leb_spec n 1); try done; nia.
    - intros d Hd. destruct (Z.ltb_spec (c * c * d) 0), (Z.ltb_spec d 0); try done; nia.
    - done.
    - replace (2 * Z.of_nat L) with (2 ^ Z.of_nat (S e)); [by apply even_chain_pow2|].
      rewrite HL, Nat2Z.inj_succ, Z.pow_succ_r by lia. done. }
  assert (E3 : create_schedule_state (2 * Z.of_nat L * c) mws 0 (fun _ _ => false) fuel0 L = Ok (scale c s0)).
  { apply (state_same _ mws (2 * c - 1)); try done; [lia|lia|]. intros w Hw. apply scaled_sizes in Hw as (v&Hv&->); [|done].
    rewrite forallb_forall in H1. specialize (H1 v (proj1 (elem_of_list_In _ _) Hv)). apply Z.ltb_lt in H1. cbn [scale_work wN]. nia. }
  rewrite (state_fuel _ _ _ _ _ _ _ _ _ E' E3). split; [done|].
  intros t Ht. unfold scale in Ht. cbn [total_work] in Ht. apply elem_of_list_In, in_map_iff in Ht as (u&<-&Hu).
  rewrite forallb_forall in H2. specialize (H2 u Hu). apply Z.eqb_eq in H2.
  transitivity (c * c * (Z.of_nat L * u)); [ring|]. rewrite H2. ring.
Qed.
