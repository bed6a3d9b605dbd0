(** create_schedule commutes with scaling. *)
From Verif Require Import Tools MSchedule SpecSched SpecScale PSchedule.
Local Open Scope Z_scope.

Lemma s64_u64 z : - 2 ^ 63 <= z < 2 ^ 63 -> s64 (u64 z) = z.
Proof.
  intros H. unfold s64, u64. rewrite Z.mod_mod by lia. destruct (Z.lt_ge_cases z 0) as [Hz|Hz].
  - replace (z mod 2 ^ 64) with (z + 2 ^ 64).
    + destruct (Z.ltb_spec (z + 2 ^ 64) (2 ^ 63)); lia.
    + apply (Z.mod_unique _ _ (-1)); lia.
  - rewrite Z.mod_small by lia. destruct (Z.ltb_spec z (2 ^ 63)); lia.
Qed.
Lemma lget_map {A B} (f : A -> B) l i : lget (map f l) i = match lget l i with Ok a => Ok (f a) | Fail e => Fail e end.
Proof. unfold lget. change (map f l) with (f <$> l). rewrite list_lookup_fmap. by destruct (l !! i). Qed.

Section Scale.
  Context (c N mws mws' maxd maxd' : Z) (rel rel' : Z -> Z -> bool).
  Context (Hc : 0 < c) (HN : 0 <= N) (HN2 : (c * N) * (c * N) < 2 ^ 62) (Hmws : 0 <= mws).
  Context (Hm : forall n, (c * n <=? mws') = (n <=? mws)).
  Context (Hd : forall d, 0 <= d <= N * N -> (c * c * d <? maxd') = (d <? maxd)).
  Context (Hrel : forall d m, 0 <= d <= N * N -> 0 < m <= N * N -> rel' (c * c * d) (c * c * m) = rel d m).
  Context (Hev : even_chain N mws).

  Local Notation C := (c * c).
  Local Lemma C_pos : 0 < C. Proof. nia. Qed.
  Local Lemma CN : C * (N * N) < 2 ^ 62.
  Proof. replace (C * (N * N)) with ((c * N) * (c * N)) by ring. done. Qed.
  Local Lemma NN : N * N < 2 ^ 62.
  Proof. pose proof C_pos. pose proof CN. nia. Qed.
  Local Lemma ltb_C a b : (C * a <? C * b) = (a <? b).
  Proof. pose proof C_pos. destruct (Z.ltb_spec a b), (Z.ltb_spec (C * a) (C * b)); try done; nia. Qed.
  Local Lemma leb_C a b : (C * a <=? C * b) = (a <=? b).
  Proof. pose proof C_pos. destruct (Z.leb_spec a b), (Z.leb_spec (C * a) (C * b)); try done; nia. Qed.
  Local Lemma eqb_C a b : (C * a =? C * b) = (a =? b).
  Proof. pose proof C_pos. destruct (Z.eqb_spec a b), (Z.eqb_spec (C * a) (C * b)); try done; nia. Qed.
  Local Lemma u64_C d : 0 <= d <= N * N -> u64 (C * d) = C * u64 d.
  Proof. intros H. pose proof C_pos. pose proof CN. pose proof NN. rewrite !u64_id; [done|lia|]. split; [nia|]. nia. Qed.

  Lemma min_max_scale t0 ts : min_max (C * t0) (map (Z.mul C) ts) = (C * (min_max t0 ts).1, C * (min_max t0 ts).2).
  Proof.
    unfold min_max. enough (forall p, foldl (fun mm t => (if t <? mm.1 then t else mm.1, if mm.2 <? t then t else mm.2)) (C * p.1, C * p.2) (map (Z.mul C) ts) =
      (C * (foldl (fun mm t => (if t <? mm.1 then t else mm.1, if mm.2 <? t then t else mm.2)) p ts).1,
       C * (foldl (fun mm t => (if t <? mm.1 then t else mm.1, if mm.2 <? t then t else mm.2)) p ts).2)) as H by exact (H (t0, t0)).
    induction ts as [|t ts IH]; intros p; [done|]. cbn [map foldl]. rewrite <- IH. cbn [fst snd]. rewrite !ltb_C.
    by destruct (t <? p.1), (p.2 <? t).
  Qed.
  Lemma constraints_scale total : (forall t, t ∈ total -> 0 <= t <= N * N) ->
    fulfills_constraints maxd' rel' (map (Z.mul C) total) = fulfills_constraints maxd rel total.
  Proof.
    intros Ht. unfold fulfills_constraints. destruct total as [|t0 ts]; [done|]. cbn [lget lookup list_lookup map rbind tail].
    rewrite min_max_scale. destruct (min_max t0 ts) as [mn mx] eqn:E. cbn [fst snd].
    destruct (min_max_spec _ _ _ _ E) as [[Hmn1 Hmn2] [Hmx1 Hmx2]]. pose proof (Ht _ Hmn1). pose proof (Ht _ Hmx1). pose proof (Hmx2 _ Hmn1).
    replace (C * mx - C * mn) with (C * (mx - mn)) by ring. rewrite u64_C by lia. rewrite u64_id by (pose proof NN; lia).
    rewrite Hd by lia. pose proof C_pos.
    assert (forall a, (0 <? C * a) = (0 <? a)) as Hz by (intros a; destruct (Z.ltb_spec 0 a), (Z.ltb_spec 0 (C * a)); try done; nia).
    rewrite !Hz. destruct (mx - mn <? maxd); [done|]. destruct (Z.ltb_spec 0 mn); [|done]. destruct (0 <? mx); [|done].
    cbn [andb]. by rewrite Hrel by lia.
  Qed.
  Lemma ext_loop_scale ts : forall e i, ext_loop (Ext (C * e_max e) (e_maxs e) (C * e_min e) (e_minidx e)) i (map (Z.mul C) ts) =
    let e' := ext_loop e i ts in Ext (C * e_max e') (e_maxs e') (C * e_min e') (e_minidx e').
  Proof.
    induction ts as [|t ts IH]; intros e i; [done|]. cbn [map ext_loop]. cbv zeta. rewrite <- IH. f_equal.
    unfold ext_step. cbn [e_max e_maxs e_min e_minidx]. rewrite !ltb_C, eqb_C.
    destruct (e_max e <? t), (t <? e_min e), (t =? e_max e); done.
  Qed.
  Lemma extremes_scale total : extremes_of (map (Z.mul C) total) =
    match extremes_of total with Ok e => Ok (Ext (C * e_max e) (e_maxs e) (C * e_min e) (e_minidx e)) | Fail e => Fail e end.
  Proof.
    unfold extremes_of. destruct total as [|t0 ts]; [done|]. cbn [lget lookup list_lookup map rbind tail].
    f_equal. exact (ext_loop_scale ts (Ext t0 [0%nat] t0 0%nat) 1).
  Qed.

  (** Packages that may be split have an even size. *)
  Definition fits (w : work) : Prop := 0 <= wN w <= N /\ (mws < wN w -> (2 | wN w)).
  Lemma difference_scale mx mn w : 0 <= mn <= N * N -> 0 <= mx <= N * N -> fits w -> mws < wN w ->
    exists d, work_difference mx mn w = Ok d /\ work_difference (C * mx) (C * mn) (scale_work c w) = Ok (C * d) /\ 0 <= d <= 2 * (N * N).
  Proof.
    intros Hmn Hmx [Hw He] Hg. destruct (He Hg) as [h Hh]. pose proof C_pos as HC. pose proof CN as HCN. pose proof NN as HNN.
    unfold work_difference, scale_work. cbn [wN]. rewrite Hh in *.
    assert (0 <= h * 2 * (h * 2) <= N * N) as Hs by nia.
    assert (h * 2 * (h * 2) / 2 = 2 * h * h) as E1 by (symmetry; apply (Z.div_unique _ _ _ 0); lia).
    replace (c * (h * 2) * (c * (h * 2))) with (C * (h * 2 * (h * 2))) by ring. rewrite u64_C by done.
    rewrite (u64_id (h * 2 * (h * 2))) by lia.
    assert (C * (h * 2 * (h * 2)) / 2 = C * (2 * h * h)) as E2 by (symmetry; apply (Z.div_unique _ _ _ 0); lia).
    rewrite E1, E2. set (q := 2 * h * h) in *. assert (0 <= q /\ 2 * q <= N * N) as Hq by (subst q; lia). clearbody q. clear E1 E2 Hs.
    assert (C * mx <= C * (N * N) /\ C * mn <= C * (N * N) /\ 2 * (C * q) <= C * (N * N) /\ 0 <= C * q /\ 0 <= C * mx /\ 0 <= C * mn) as HB by (split_and!; nia).
    rewrite !s64_u64 by lia. rewrite !chk64_ok by lia. cbn [rbind].
    assert (C * mx - C * q - (C * mn + C * q) = C * (mx - q - (mn + q))) as E by ring. rewrite E, Z.abs_mul, (Z.abs_eq C) by lia.
    exists (Z.abs (mx - q - (mn + q))). split_and!; [|f_equal|lia|lia].
    - apply chk64_ok. lia.
    - apply chk64_ok. rewrite <- (Z.abs_eq C) by lia. rewrite <- Z.abs_mul, <- E. lia.
  Qed.
  Lemma u64_2 d : 0 <= d <= 2 * (N * N) -> u64 (C * d) = C * d /\ u64 d = d.
  Proof. intros H. pose proof C_pos. pose proof CN. pose proof NN. rewrite !u64_id; [done|lia|]. split; nia. Qed.
  Lemma pick_loop_scale mx mn ws : 0 <= mn <= N * N -> 0 <= mx <= N * N -> (forall w, w ∈ ws -> fits w) -> forall j smallest idx,
    pick_loop mws' (C * mx) (C * mn) (map (scale_work c) ws) j (C * smallest) idx = pick_loop mws mx mn ws j smallest idx.
  Proof.
    intros Hmn Hmx. induction ws as [|w ws IH]; intros Hws j smallest idx; [done|]. cbn [map pick_loop].
    assert (forall w, w ∈ ws -> fits w) as Hws' by (intros; apply Hws; by right).
    cbn [scale_work wN]. rewrite Hm. destruct (Z.leb_spec (wN w) mws) as [H|H]; [by apply IH|].
    destruct (difference_scale mx mn w Hmn Hmx (Hws w ltac:(by left)) H) as (d&Ed&Ed'&Hd'). rewrite Ed, Ed'. cbn [rbind].
    destruct (u64_2 d Hd') as [-> ->]. rewrite leb_C. destruct (d <=? smallest); by apply IH.
  Qed.
  Lemma pick_scale mx mn ws : 0 <= mn <= N * N -> mn <= mx <= N * N -> (forall w, w ∈ ws -> fits w) ->
    pick mws' (C * mx) (C * mn) (map (scale_work c) ws) = pick mws mx mn ws.
  Proof.
    intros Hmn Hmx Hws. unfold pick. rewrite map_length. replace (C * mx - C * mn) with (C * (mx - mn)) by ring.
    rewrite u64_C by lia. apply pick_loop_scale; [done|lia|done].
  Qed.
  Lemma find_scale all mx mn maxs : 0 <= mn <= N * N -> mn <= mx <= N * N -> (forall w, w ∈ concat all -> fits w) ->
    find_package mws' (map (map (scale_work c)) all) (C * mx) (C * mn) maxs = find_package mws all mx mn maxs.
  Proof.
    intros Hmn Hmx Hws. induction maxs as [|i maxs IH]; [done|]. cbn [find_package]. rewrite lget_map.
    destruct (lget all i) as [ws|] eqn:E; [|done]. cbn [rbind].
    rewrite pick_scale; [|done|done|].
    - destruct (pick mws mx mn ws) as [j|]; [|done]. cbn [rbind]. rewrite map_length. destruct (j =? length ws)%nat; [done|done].
    - intros w Hw. apply Hws. unfold lget in E. destruct (all !! i) eqn:E2; [|done]. injection E as ->. by eapply elem_concat.
  Qed.

  Lemma map_alter {A B} (f : A -> B) (g : A -> A) (g' : B -> B) (l : list A) i : (forall a, f (g a) = g' (f a)) -> map f (alter g i l) = alter g' i (map f l).
  Proof.
    intros Hg. revert i; induction l as [|a l IH]; intros i; [done|]. destruct i as [|i]; cbn; [by rewrite Hg|]. f_equal. apply IH.
  Qed.
  Lemma map_push (L : list (list work)) i w : map (map (scale_work c)) (alter (fun l => l ++ [w]) i L) = alter (fun l => l ++ [scale_work c w]) i (map (map (scale_work c)) L).
  Proof. apply map_alter. intros a. by rewrite map_app. Qed.
  Lemma map_insert {A B} (f : A -> B) (l : list A) i x : map f (<[i := x]> l) = <[i := f x]> (map f l).
  Proof. exact (list_fmap_insert f l i x). Qed.
  Lemma map_delete {A B} (f : A -> B) (l : list A) i : map f (delete i l) = delete i (map f l).
  Proof. revert i; induction l as [|a l IH]; intros i; [done|]. destruct i as [|i]; cbn; [done|]. f_equal. apply IH. Qed.

  Lemma split_scale s imax j imin : (forall t, t ∈ total_work s -> 0 <= t <= N * N) ->
    (forall w, w ∈ concat (all_work s) -> fits w /\ 0 <= wx w <= N /\ 0 <= wy w <= N) ->
    (forall ws w, all_work s !! imax = Some ws -> ws !! j = Some w -> mws < wN w /\ forall t, total_work s !! imax = Some t -> wN w * wN w <= t) ->
    split_package (scale c s) imax j imin = match split_package s imax j imin with Ok s' => Ok (scale c s') | Fail e => Fail e end.
  Proof.
    intros Ht Hw Hj. unfold split_package. cbn [scale all_work total_work]. rewrite !lget_map.
    destruct (lget (all_work s) imax) as [ws|] eqn:E1; [|done]. cbn [rbind]. rewrite lget_map.
    destruct (lget ws j) as [w|] eqn:E2; [|done]. cbn [rbind].
    unfold lget in E1, E2. destruct (all_work s !! imax) as [ws0|] eqn:F1; [|done]. injection E1 as ->.
    destruct (ws !! j) as [w0|] eqn:F2; [|done]. injection E2 as ->.
    destruct (Hj ws w eq_refl F2) as [Hg Hle].
    destruct (Hw w) as ((Hn&Hev2)&Hx&Hy). { eapply elem_concat; [exact F1|]. by eapply elem_of_list_lookup_2. }
    destruct (Hev2 Hg) as [h Hh]. cbn [scale_work wN wx wy].
    assert (wN w / 2 = h) as -> by (symmetry; apply (Z.div_unique _ _ _ 0); lia).
    assert (c * wN w / 2 = c * h) as -> by (symmetry; apply (Z.div_unique _ _ _ 0); lia).
    destruct (lget (total_work s) imax) as [tmax|] eqn:E3; [|done]. cbn [rbind].
    pose proof C_pos as HC. pose proof CN as HCN. pose proof NN as HNN.
    assert (0 <= 2 * h * h <= N * N) as Hq by nia.
    assert (total_work s !! imax = Some tmax) as F3. { unfold lget in E3. destruct (total_work s !! imax); [|done]. by injection E3 as ->. }
    assert (0 <= tmax <= N * N) as Htm by (apply Ht; by eapply elem_of_list_lookup_2).
    specialize (Hle tmax F3).
    replace (2 * (c * h) * (c * h)) with (C * (2 * h * h)) by ring. rewrite u64_C by done. rewrite (u64_id (2 * h * h)) by lia.
    replace (C * tmax - C * (2 * h * h)) with (C * (tmax - 2 * h * h)) by ring. rewrite u64_C by nia. rewrite (u64_id (tmax - 2 * h * h)) by nia.
    rewrite <- map_insert, lget_map. destruct (lget (<[imax := tmax - 2 * h * h]> (total_work s)) imin) as [tmin|] eqn:E4; [|done]. cbn [rbind].
    assert (0 <= tmin <= N * N) as Htn.
    { unfold lget in E4. destruct (<[imax:=tmax - 2 * h * h]> (total_work s) !! imin) eqn:F4; [|done]. injection E4 as ->.
      apply elem_of_list_lookup_2 in F4. apply insert_elem in F4 as [->|F4]; [nia|by apply Ht]. }
    f_equal. unfold scale. cbn [all_work total_work].
    assert (c * N < 2 ^ 31) as HcN by (destruct (Z.lt_ge_cases (c * N) (2 ^ 31)); [done|nia]).
    assert (N <= c * N) by nia.
    assert (forall a b, 0 <= a <= N -> 0 <= b <= N -> u64 (c * a + c * b) = c * u64 (a + b)) as Hu.
    { intros a b Ha Hb. rewrite !u64_id by nia. ring. }
    assert (forall a, 0 <= a <= N -> u64 (c * a + 0) = c * u64 (a + 0)) as Hu0.
    { intros a Ha. rewrite !u64_id by nia. ring. }
    rewrite !Hu, !Hu0 by lia. f_equal.
    - rewrite <- map_delete, <- map_insert.
      rewrite !map_push. done.
    - rewrite (u64_id (tmin + 2 * h * h)) by lia. rewrite u64_id by nia.
      replace (C * tmin + C * (2 * h * h)) with (C * (tmin + 2 * h * h)) by ring. rewrite !map_insert. done.
  Qed.

  Lemma step_scale s : inv N mws s ->
    sched_step mws' maxd' rel' (scale c s) = match sched_step mws maxd rel s with Ok (Some s') => Ok (Some (scale c s')) | Ok None => Ok None | Fail e => Fail e end.
  Proof.
    intros Hi. pose proof (inv_total N mws s) as Ht. specialize (fun t => Ht t Hi).
    assert (forall w, w ∈ concat (all_work s) -> fits w /\ 0 <= wx w <= N /\ 0 <= wy w <= N) as Hw.
    { intros w Hw. pose proof (inv_in _ _ _ Hi) as Hin. rewrite Forall_forall in Hin. destruct (Hin w Hw) as (H1&H2&H3&H4&H5).
      split; [|lia]. split; [lia|]. intros Hg. apply Hev; [by apply (inv_size _ _ _ Hi)|done]. }
    unfold sched_step. cbn [scale all_work total_work]. rewrite constraints_scale by done.
    destruct (fulfills_constraints maxd rel (total_work s)) as [[]|]; [done| |done]. cbn [rbind].
    rewrite extremes_scale. destruct (extremes_ok (total_work s) (inv_pos _ _ _ Hi)) as (e&Ee&Hext). rewrite Ee. cbn [rbind e_max e_maxs e_min e_minidx].
    destruct Hext as ([He1 He1']&He2&[He3 He3']&He4). pose proof (Ht _ He1). pose proof (Ht _ He3). pose proof (He1' _ He3).
    rewrite find_scale; [|lia|lia|intros w Hw'; by apply Hw].
    destruct (find_ok N mws NN (all_work s) (e_max e) (e_min e) (e_maxs e)) as [[-> _]|(i&j&ws&w&->&Hi1&Hi2&Hi3&Hi4&_)]; [lia|lia| |done|].
    { intros i Hmi. apply He2 in Hmi. destruct (lookup_lt_is_Some_2 (all_work s) i) as [ws Hws].
      - rewrite (inv_len _ _ _ Hi). by eapply lookup_lt_Some.
      - exists ws. split; [done|]. intros w Hin. pose proof (inv_area _ _ _ Hi _ _ _ Hmi Hws). pose proof (area_elem _ _ Hin). lia. }
    cbn [rbind]. rewrite split_scale; [|done|done|].
    - by destruct (split_package s i j (e_minidx e)).
    - intros ws' w' E1 E2. rewrite Hi2 in E1. injection E1 as <-. rewrite Hi3 in E2. injection E2 as <-. split; [done|].
      intros t Hti. pose proof (inv_area _ _ _ Hi _ _ _ Hti Hi2). apply elem_of_list_lookup_2 in Hi3. pose proof (area_elem _ _ Hi3). lia.
  Qed.
  Lemma loop_scale fuel s : inv N mws s ->
    sched_loop mws' maxd' rel' fuel (scale c s) = match sched_loop mws maxd rel fuel s with Ok s' => Ok (scale c s') | Fail e => Fail e end.
  Proof.
    revert s. induction fuel as [|fuel IH]; intros s Hi; [done|]. cbn [sched_loop]. rewrite step_scale by done.
    destruct (sched_step mws maxd rel s) as [[s'|]|] eqn:E; cbn [rbind]; [|done|done]. apply IH. eapply step_inv; [exact NN|exact Hmws|exact Hi|exact E].
  Qed.
  Lemma init_scale n : sched_init (c * N) n = match sched_init N n with Ok s => Ok (scale c s) | Fail e => Fail e end.
  Proof.
    destruct n as [|n]; [done|]. cbn [sched_init]. f_equal. unfold scale. cbn [all_work total_work map].
    change (map (map (scale_work c)) (replicate n [])) with (map (scale_work c) <$> replicate n []).
    change (map (Z.mul C) (replicate n 0)) with (Z.mul C <$> replicate n 0). rewrite !fmap_replicate. cbn [map].
    unfold scale_work. cbn [wx wy wN]. rewrite !Z.mul_0_r. replace (c * N * (c * N)) with (C * (N * N)) by ring. rewrite u64_C by nia. done.
  Qed.
  Lemma state_scale fuel n : create_schedule_state (c * N) mws' maxd' rel' fuel n =
    match create_schedule_state N mws maxd rel fuel n with Ok s => Ok (scale c s) | Fail e => Fail e end.
  Proof.
    unfold create_schedule_state. rewrite init_scale. destruct (sched_init N n) as [s|] eqn:E; [|done]. cbn [rbind].
    apply loop_scale. eapply init_inv; [exact HN|exact NN|exact E].
  Qed.
End Scale.
