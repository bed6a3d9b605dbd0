(** Proofs about create_schedule (src/variants/static_improved.cpp:42-195). *)
From Verif Require Import Tools MSchedule SpecSched.
Local Open Scope Z_scope.

(** ** Machine arithmetic *)
Lemma u64_id z : 0 <= z < 2 ^ 64 -> u64 z = z.
Proof. intros. unfold u64. by apply Z.mod_small. Qed.
Lemma s64_id z : 0 <= z < 2 ^ 63 -> s64 z = z.
Proof.
  intros. unfold s64. rewrite u64_id by lia. destruct (Z.ltb_spec z (2 ^ 63)); lia.
Qed.
Lemma chk64_ok z : - 2 ^ 63 <= z < 2 ^ 63 -> chk64 z = Ok z.
Proof. intros. unfold chk64. destruct (Z.leb_spec (- 2 ^ 63) z), (Z.ltb_spec z (2 ^ 63)); simpl; try done; lia. Qed.

(** ** hits and area *)
Lemma hits_perm i j ws ws' : ws ≡ₚ ws' -> hits i j ws = hits i j ws'.
Proof. intros Hp. unfold hits. by rewrite Hp. Qed.
Lemma hits_app i j ws ws' : hits i j (ws ++ ws') = (hits i j ws + hits i j ws')%nat.
Proof. unfold hits. by rewrite filter_app, app_length. Qed.
Lemma hits_cons i j w ws : hits i j (w :: ws) = ((if decide (has w i j) then 1 else 0) + hits i j ws)%nat.
Proof. unfold hits. rewrite filter_cons. by destruct (decide _). Qed.
Lemma hits_nil i j : hits i j [] = 0%nat.
Proof. done. Qed.

Definition cubes (ws : list work) : Z := foldr (fun w a => wN w * wN w * wN w + a) 0 ws.

Lemma area_app ws ws' : area (ws ++ ws') = area ws + area ws'.
Proof. induction ws as [|w ws IH]; cbn [area foldr app] in *; unfold area in *; simpl in *; lia. Qed.
Lemma area_perm ws ws' : ws ≡ₚ ws' -> area ws = area ws'.
Proof. unfold area. induction 1; simpl; lia. Qed.
Lemma cubes_app ws ws' : cubes (ws ++ ws') = cubes ws + cubes ws'.
Proof. unfold cubes. induction ws as [|w ws IH]; simpl in *; lia. Qed.
Lemma cubes_perm ws ws' : ws ≡ₚ ws' -> cubes ws = cubes ws'.
Proof. unfold cubes. induction 1; simpl; lia. Qed.
Lemma sumZ_insert l i x y : l !! i = Some x -> sumZ (<[i := y]> l) = sumZ l - x + y.
Proof.
  revert i. induction l as [|z l IH]; intros [|i]; simpl; intros Hl; try done.
  - injection Hl as ->. lia.
  - rewrite IH by done. lia.
Qed.

Lemma area_nonneg ws : 0 <= area ws.
Proof. unfold area. induction ws; simpl; nia. Qed.
Lemma area_elem w ws : w ∈ ws -> wN w * wN w <= area ws.
Proof.
  unfold area. induction 1 as [|w w' ws Hin IH]; simpl; [pose proof (area_nonneg l); unfold area in *; lia|].
  nia.
Qed.

(** ** Quarters *)
Definition quarters (w : work) : list work :=
  let n := wN w / 2 in
  [Work (wx w) (wy w) n; Work (wx w + n) (wy w) n; Work (wx w) (wy w + n) n; Work (wx w + n) (wy w + n) n].

Lemma half_bounds n : 2 * (n / 2) <= n <= 2 * (n / 2) + 1.
Proof. pose proof (Z.div_mod n 2 ltac:(lia)). pose proof (Z.mod_pos_bound n 2 ltac:(lia)). lia. Qed.

Lemma hits_quarters i j w : 0 <= wN w -> (hits i j (quarters w) <= hits i j [w])%nat.
Proof.
  intros Hw. pose proof (half_bounds (wN w)). unfold quarters. rewrite !hits_cons, !hits_nil.
  set (n := wN w / 2) in *. unfold has.
  repeat (case_decide; simpl in *); lia.
Qed.
Lemma hits_quarters_even i j w : 0 <= wN w -> (2 | wN w) -> hits i j (quarters w) = hits i j [w].
Proof.
  intros Hw [q Hq]. assert (Hn : wN w / 2 = q) by (rewrite Hq; apply Z.div_mul; lia).
  unfold quarters. rewrite !hits_cons, !hits_nil, Hn. unfold has.
  repeat (case_decide; simpl in *); lia.
Qed.
Lemma cubes_quarters w : 1 <= wN w -> cubes (quarters w) < cubes [w].
Proof.
  intros Hw. pose proof (half_bounds (wN w)). unfold quarters, cubes. simpl. set (n := wN w / 2) in *.
  set (N := wN w) in *. assert (0 <= n) by lia. assert (4 * (n * n) <= N * N) by nia.
  assert (8 * (n * n * n) <= N * N * N) by nia.
  destruct (decide (n = 0)) as [->|]; [|assert (0 < n * n * n) by nia; lia]. assert (N = 1) as -> by lia. lia.
Qed.
Lemma area_quarters w : 0 <= wN w -> area (quarters w) = 4 * (wN w / 2 * (wN w / 2)).
Proof. intros Hw. unfold quarters, area. simpl. lia. Qed.

(** ** Minimum and maximum *)
Lemma min_max_spec t0 ts mn mx : min_max t0 ts = (mn, mx) -> is_min mn (t0 :: ts) /\ is_max mx (t0 :: ts).
Proof.
  unfold min_max.
  assert (forall ts pre a b, is_min a pre -> is_max b pre ->
    foldl (fun mm t => (if t <? mm.1 then t else mm.1, if mm.2 <? t then t else mm.2)) (a, b) ts = (mn, mx) ->
    is_min mn (pre ++ ts) /\ is_max mx (pre ++ ts)) as Hl.
  { clear. induction ts as [|t ts IH]; intros pre a b Ha Hb; simpl.
    - intros [= <- <-]. by rewrite app_nil_r.
    - intros Hf. replace (pre ++ t :: ts) with ((pre ++ [t]) ++ ts) by (by rewrite <- app_assoc).
      eapply IH; [| |exact Hf]; simpl.
      + destruct Ha as [Hi Ha]. destruct (Z.ltb_spec t a).
        * split; [apply elem_of_app; right; by apply elem_of_list_singleton|].
          intros t' [Ht'| ->%elem_of_list_singleton]%elem_of_app; [specialize (Ha _ Ht')|]; lia.
        * split; [by apply elem_of_app; left|].
          intros t' [Ht'| ->%elem_of_list_singleton]%elem_of_app; [by apply Ha|lia].
      + destruct Hb as [Hi Hb]. destruct (Z.ltb_spec b t).
        * split; [apply elem_of_app; right; by apply elem_of_list_singleton|].
          intros t' [Ht'| ->%elem_of_list_singleton]%elem_of_app; [specialize (Hb _ Ht')|]; lia.
        * split; [by apply elem_of_app; left|].
          intros t' [Ht'| ->%elem_of_list_singleton]%elem_of_app; [by apply Hb|lia]. }
  apply (Hl ts [t0] t0 t0); (split; [by apply elem_of_list_singleton|intros t' ->%elem_of_list_singleton; lia]).
Qed.
Lemma is_min_unique a b l : is_min a l -> is_min b l -> a = b.
Proof. intros [Ha Ha'] [Hb Hb']. specialize (Ha' _ Hb). specialize (Hb' _ Ha). lia. Qed.
Lemma is_max_unique a b l : is_max a l -> is_max b l -> a = b.
Proof. intros [Ha Ha'] [Hb Hb']. specialize (Ha' _ Hb). specialize (Hb' _ Ha). lia. Qed.

Definition ext_ok (e : extremes) (l : list Z) : Prop :=
  is_max (e_max e) l /\ (forall i, i ∈ e_maxs e <-> l !! i = Some (e_max e)) /\
  is_min (e_min e) l /\ l !! e_minidx e = Some (e_min e).

Lemma ext_step_ok e l t : ext_ok e l -> ext_ok (ext_step e (length l) t) (l ++ [t]).
Proof.
  intros ((Hm1&Hm2)&Hi&(Hn1&Hn2)&Hx). unfold ext_step, ext_ok; simpl. split_and!.
  - destruct (Z.ltb_spec (e_max e) t).
    + split; [apply elem_of_app; right; by apply elem_of_list_singleton|].
      intros t' [Ht'| ->%elem_of_list_singleton]%elem_of_app; [specialize (Hm2 _ Ht')|]; lia.
    + split; [by apply elem_of_app; left|].
      intros t' [Ht'| ->%elem_of_list_singleton]%elem_of_app; [by apply Hm2|lia].
  - intros i. destruct (Z.ltb_spec (e_max e) t) as [Hlt|Hge].
    + rewrite elem_of_list_singleton. split.
      * intros ->. by rewrite lookup_app_r, Nat.sub_diag by lia.
      * intros Hl. destruct (decide (i < length l)%nat).
        { rewrite lookup_app_l in Hl by done. apply elem_of_list_lookup_2 in Hl. specialize (Hm2 _ Hl). lia. }
        rewrite lookup_app_r in Hl by lia. destruct (i - length l)%nat eqn:?; [lia|done].
    + destruct (Z.eqb_spec t (e_max e)) as [->|Hne].
      * rewrite elem_of_app, elem_of_list_singleton, Hi. split.
        { intros [Hl| ->]; [by apply lookup_app_l_Some|]. by rewrite lookup_app_r, Nat.sub_diag by lia. }
        { intros Hl. destruct (decide (i < length l)%nat); [left; by rewrite lookup_app_l in Hl by done|].
          right. rewrite lookup_app_r in Hl by lia. destruct (i - length l)%nat eqn:?; [lia|done]. }
      * rewrite Hi. split; [by apply lookup_app_l_Some|]. intros Hl.
        destruct (decide (i < length l)%nat); [by rewrite lookup_app_l in Hl by done|].
        rewrite lookup_app_r in Hl by lia. destruct (i - length l)%nat; simpl in Hl; by simplify_eq.
  - destruct (Z.ltb_spec t (e_min e)).
    + split; [apply elem_of_app; right; by apply elem_of_list_singleton|].
      intros t' [Ht'| ->%elem_of_list_singleton]%elem_of_app; [specialize (Hn2 _ Ht')|]; lia.
    + split; [by apply elem_of_app; left|].
      intros t' [Ht'| ->%elem_of_list_singleton]%elem_of_app; [by apply Hn2|lia].
  - destruct (Z.ltb_spec t (e_min e)); [by rewrite lookup_app_r, Nat.sub_diag by lia|].
    by apply lookup_app_l_Some.
Qed.
Lemma ext_loop_ok ts : forall e l, ext_ok e l -> ext_ok (ext_loop e (length l) ts) (l ++ ts).
Proof.
  induction ts as [|t ts IH]; intros e l He; simpl; [by rewrite app_nil_r|].
  replace (l ++ t :: ts) with ((l ++ [t]) ++ ts) by (by rewrite <- app_assoc).
  replace (S (length l)) with (length (l ++ [t])) by (rewrite app_length; simpl; lia).
  apply IH, ext_step_ok, He.
Qed.
Lemma extremes_ok l : (0 < length l)%nat -> exists e, extremes_of l = Ok e /\ ext_ok e l.
Proof.
  destruct l as [|t0 ts]; simpl; intros Hl; [lia|].
  eexists; split; [reflexivity|]. apply (ext_loop_ok ts _ [t0]).
  unfold ext_ok; simpl. split_and!; try done.
  - split; [by apply elem_of_list_singleton|intros t' ->%elem_of_list_singleton; lia].
  - intros i. rewrite elem_of_list_singleton. split; [by intros ->|]. destruct i; [done|]. simpl. by rewrite lookup_nil.
  - split; [by apply elem_of_list_singleton|intros t' ->%elem_of_list_singleton; lia].
Qed.

Section Sched.
  Context (N min_work_size max_work_difference : Z) (rel : Z -> Z -> bool).
  Context (HN : 0 <= N) (HN2 : N * N < 2 ^ 62) (Hmws : 0 <= min_work_size).

  Local Notation step := (sched_step min_work_size max_work_difference rel).

  (** Invariant of the loop. *)
  Definition row_ok (s : sched) : Prop := forall i t ws,
    total_work s !! i = Some t -> all_work s !! i = Some ws -> area ws <= t.
  Record inv (s : sched) : Prop := {
    inv_len : length (all_work s) = length (total_work s);
    inv_pos : (0 < length (total_work s))%nat;
    inv_in : Forall (inside N) (concat (all_work s));
    inv_hits : forall i j, (hits i j (concat (all_work s)) <= 1)%nat;
    inv_area : row_ok s;
    inv_sum : sumZ (total_work s) = N * N;
    inv_nonneg : Forall (fun t => 0 <= t) (total_work s);
    inv_size : forall w, w ∈ concat (all_work s) ->
      size_of N min_work_size (wN w);
  }.

  Lemma sumZ_nonneg l : Forall (fun t => 0 <= t) l -> 0 <= sumZ l.
  Proof. induction 1; simpl; lia. Qed.
  Lemma sumZ_elem l t : Forall (fun t => 0 <= t) l -> t ∈ l -> t <= sumZ l.
  Proof.
    intros Hf. induction 1 as [x l|x y l Hin IH]; apply Forall_cons in Hf as [Hx Hf]; simpl.
    - pose proof (sumZ_nonneg _ Hf). lia.
    - specialize (IH Hf). lia.
  Qed.
  Lemma inv_total s t : inv s -> t ∈ total_work s -> 0 <= t <= N * N.
  Proof.
    intros Hi Ht. destruct Hi as [_ _ _ _ _ Hs Hf _]. split; [|rewrite <- Hs; by apply sumZ_elem].
    rewrite Forall_forall in Hf. by apply Hf.
  Qed.

  (** Difference computed by the code = the intended difference. *)
  Lemma work_difference_ok mx mn w : 0 <= mn <= N * N -> wN w * wN w <= mx <= N * N ->
    work_difference mx mn w = Ok (diff_after mx mn w) /\ 0 <= diff_after mx mn w < 2 ^ 63.
  Proof.
    intros Hmn Hmx. unfold work_difference, diff_after.
    assert (0 <= wN w * wN w) by nia.
    rewrite (u64_id (wN w * wN w)) by lia. set (sq := wN w * wN w) in *.
    pose proof (half_bounds sq). set (h := sq / 2) in *.
    rewrite (u64_id (mx - h)), (u64_id (mn + h)) by lia.
    rewrite !s64_id by lia. rewrite chk64_ok by lia. simpl. split; [|lia]. apply chk64_ok. lia.
  Qed.

  Lemma pick_loop_ok mx mn ws j smallest idx :
    0 <= mn <= N * N -> mx <= N * N -> (forall w, w ∈ ws -> wN w * wN w <= mx) ->
    exists r, pick_loop min_work_size mx mn ws j smallest idx = Ok r /\
      ((r = idx /\ forall w, w ∈ ws -> min_work_size < wN w -> smallest < diff_after mx mn w) \/
       (exists k w, r = (j + k)%nat /\ ws !! k = Some w /\ min_work_size < wN w /\ diff_after mx mn w <= smallest)).
  Proof.
    intros Hmn Hmx. revert j smallest idx. induction ws as [|w ws IH]; intros j smallest idx Hws; simpl.
    { exists idx. split; [done|]. left. split; [done|]. intros w Hw. by apply elem_of_nil in Hw. }
    assert (Hws' : forall w, w ∈ ws -> wN w * wN w <= mx) by (intros; apply Hws; by right).
    destruct (Z.leb_spec (wN w) min_work_size) as [Hle|Hgt].
    { destruct (IH (S j) smallest idx Hws') as (r&Hr&Hc). exists r. split; [done|].
      destruct Hc as [[-> Hc]|(k&w'&->&Hk&Hc)].
      - left. split; [done|]. intros w' Hw' Hs. apply elem_of_cons in Hw' as [->|Hw']; [lia|by apply Hc].
      - right. exists (S k), w'. split; [lia|done]. }
    destruct (work_difference_ok mx mn w) as [-> Hd]; [done|split; [apply Hws; by left|done]|]. simpl.
    rewrite u64_id by lia.
    destruct (Z.leb_spec (diff_after mx mn w) smallest) as [Hle|Hgt'].
    - destruct (IH (S j) (diff_after mx mn w) j Hws') as (r&Hr&Hc). exists r. split; [done|].
      right. destruct Hc as [[-> Hc]|(k&w'&->&Hk&Hc1&Hc2)].
      + exists 0%nat, w. split_and!; [lia|done|lia|lia].
      + exists (S k), w'. split_and!; [lia|done|lia|lia].
    - destruct (IH (S j) smallest idx Hws') as (r&Hr&Hc). exists r. split; [done|].
      destruct Hc as [[-> Hc]|(k&w'&->&Hk&Hc)].
      + left. split; [done|]. intros w' Hw' Hs. apply elem_of_cons in Hw' as [->|Hw']; [lia|by apply Hc].
      + right. exists (S k), w'. split; [lia|done].
  Qed.

  Lemma pick_ok mx mn ws :
    0 <= mn <= mx -> mx <= N * N -> (forall w, w ∈ ws -> wN w * wN w <= mx) ->
    exists r, pick min_work_size mx mn ws = Ok r /\
      ((r = length ws /\ forall w, w ∈ ws -> min_work_size < wN w -> mx - mn < diff_after mx mn w) \/
       (exists w, ws !! r = Some w /\ min_work_size < wN w /\ diff_after mx mn w <= mx - mn)).
  Proof.
    intros Hmn Hmx Hws. unfold pick. rewrite u64_id by lia.
    destruct (pick_loop_ok mx mn ws 0 (mx - mn) (length ws)) as (r&Hr&Hc); [lia|done|done|].
    exists r. split; [done|]. destruct Hc as [?|(k&w&->&?&?)]; [by left|right]. by exists w.
  Qed.

  Lemma find_ok all mx mn maxs :
    0 <= mn <= mx -> mx <= N * N ->
    (forall i, i ∈ maxs -> exists ws, all !! i = Some ws /\ forall w, w ∈ ws -> wN w * wN w <= mx) ->
    (find_package min_work_size all mx mn maxs = Ok None /\
       forall i ws w, i ∈ maxs -> all !! i = Some ws -> w ∈ ws -> min_work_size < wN w -> mx - mn < diff_after mx mn w) \/
    (exists i j ws w, find_package min_work_size all mx mn maxs = Ok (Some (i, j)) /\ i ∈ maxs /\
       all !! i = Some ws /\ ws !! j = Some w /\ min_work_size < wN w /\ diff_after mx mn w <= mx - mn).
  Proof.
    intros Hmn Hmx. induction maxs as [|i maxs IH]; intros Hall; simpl.
    { left. split; [done|]. intros ??? Hi. by apply elem_of_nil in Hi. }
    destruct (Hall i) as (ws&Hws&Hle); [by left|].
    unfold lget. rewrite Hws. simpl.
    destruct (pick_ok mx mn ws) as (r&Hr&Hc); [done|done|done|]. rewrite Hr. simpl.
    destruct Hc as [[-> Hc]|(w&Hw&Hc1&Hc2)].
    - rewrite Nat.eqb_refl. destruct IH as [[IH1 IH2]|(i'&j&ws'&w&IH1&IH2&IH3)].
      + intros i' Hi'. apply Hall. by right.
      + left. split; [done|]. intros i' ws' w Hi' Hws' Hw Hs. apply elem_of_cons in Hi' as [->|Hi'].
        * rewrite Hws in Hws'. injection Hws' as <-. by apply Hc.
        * by eapply IH2.
      + right. exists i', j, ws', w. split; [done|]. split; [by right|done].
    - right. exists i, r, ws, w. pose proof (lookup_lt_Some _ _ _ Hw).
      replace (r =? length ws)%nat with false by (symmetry; apply Nat.eqb_neq; lia).
      split_and!; try done. by left.
  Qed.

  (** ** The split *)
  Lemma concat_insert (all : list (list work)) i ws ws' :
    all !! i = Some ws -> exists rest, concat all ≡ₚ ws ++ rest /\ concat (<[i := ws']> all) ≡ₚ ws' ++ rest.
  Proof.
    clear. revert i. induction all as [|v all IH]; intros [|i]; simpl; intros Hl; try done.
    - injection Hl as ->. by exists (concat all).
    - destruct (IH i Hl) as (rest&H1&H2). exists (v ++ rest). rewrite H1, H2.
      split; by rewrite (Permutation_app_swap_app v).
  Qed.
  Lemma concat_alter (all : list (list work)) i w :
    (i < length all)%nat -> concat (alter (fun l => l ++ [w]) i all) ≡ₚ w :: concat all.
  Proof.
    clear. intros Hi. destruct (lookup_lt_is_Some_2 all i Hi) as [ws Hws].
    replace (alter _ i all) with (<[i := ws ++ [w]]> all).
    - destruct (concat_insert all i ws (ws ++ [w]) Hws) as (rest&H1&H2). rewrite H1, H2.
      rewrite <- app_assoc. simpl. by rewrite <- Permutation_middle.
    - apply list_eq. intros k. destruct (decide (k = i)) as [->|].
      + rewrite list_lookup_insert by done. by rewrite list_lookup_alter, Hws.
      + by rewrite list_lookup_insert_ne, list_lookup_alter_ne by done.
  Qed.

  Lemma N_small : N < 2 ^ 31.
  Proof. destruct (decide (N < 2 ^ 31)); [done|]. assert (2 ^ 31 * 2 ^ 31 <= N * N) by nia. lia. Qed.

  Definition moved (w : work) : Z := 2 * (wN w / 2 * (wN w / 2)).

  Lemma split_ok s imax j imin ws w mx mn :
    inv s -> all_work s !! imax = Some ws -> ws !! j = Some w ->
    total_work s !! imax = Some mx -> total_work s !! imin = Some mn ->
    exists s' rest, split_package s imax j imin = Ok s' /\
      concat (all_work s) ≡ₚ w :: rest /\ concat (all_work s') ≡ₚ quarters w ++ rest /\
      length (all_work s') = length (all_work s) /\
      total_work s' = (if decide (imax = imin) then total_work s
                       else <[imin := mn + moved w]> (<[imax := mx - moved w]> (total_work s))) /\
      row_ok s'.
  Proof.
    intros Hinv Hws Hw Hmx Hmn. pose proof N_small as HN31.
    pose proof (inv_total s mx Hinv (elem_of_list_lookup_2 _ _ _ Hmx)) as Hmxb.
    pose proof (inv_total s mn Hinv (elem_of_list_lookup_2 _ _ _ Hmn)) as Hmnb.
    pose proof (inv_area _ Hinv _ _ _ Hmx Hws) as Harea.
    pose proof (area_elem _ _ (elem_of_list_lookup_2 _ _ _ Hw)) as Hwa.
    assert (Hin : inside N w).
    { pose proof (inv_in _ Hinv) as Hf. rewrite Forall_forall in Hf. apply Hf.
      apply elem_of_list_In, in_concat. exists ws. split; apply elem_of_list_In; by eapply elem_of_list_lookup_2. }
    destruct Hin as (Hx&Hy&Hn0&Hxn&Hyn).
    pose proof (half_bounds (wN w)) as Hhalf.
    assert (Hmv : 0 <= moved w /\ 2 * moved w <= wN w * wN w).
    { unfold moved. set (n := wN w / 2) in *. nia. }
    assert (Himax : (imax < length (all_work s))%nat) by (by eapply lookup_lt_Some).
    assert (Himin : (imin < length (all_work s))%nat).
    { rewrite (inv_len _ Hinv). by eapply lookup_lt_Some. }
    unfold split_package, lget. rewrite Hws. cbn [rbind]. rewrite Hw. cbn [rbind]. rewrite Hmx. cbn [rbind].
    rewrite !(u64_id (_ + 0)) by lia. rewrite !(u64_id (wx w + _)), !(u64_id (wy w + _)) by lia. rewrite !Z.add_0_r.
    replace (2 * (wN w / 2) * (wN w / 2)) with (moved w) by (unfold moved; lia).
    rewrite (u64_id (moved w)) by lia. rewrite (u64_id (mx - moved w)) by lia.
    set (n := wN w / 2) in *.
    set (all1 := <[imax := delete j ws]> (all_work s)).
    set (all5 := alter _ imin _).
    assert (Hlen1 : length all1 = length (all_work s)) by apply insert_length.
    destruct (concat_insert (all_work s) imax ws (delete j ws) Hws) as (rest0&Hc0&Hc1). fold all1 in Hc1.
    assert (Hc5 : concat all5 ≡ₚ quarters w ++ delete j ws ++ rest0).
    { unfold all5. rewrite !concat_alter by (by rewrite ?alter_length, Hlen1). rewrite Hc1. unfold quarters. fold n. simpl.
      solve_Permutation. }
    assert (Hlen5 : length all5 = length (all_work s)) by (unfold all5; by rewrite !alter_length).
    assert (Hc : concat (all_work s) ≡ₚ w :: delete j ws ++ rest0).
    { rewrite Hc0. rewrite (delete_Permutation ws j w Hw) at 1. done. }
    destruct (decide (imax = imin)) as [<-|Hne].
    - rewrite list_lookup_insert by (by eapply lookup_lt_Some). cbn [rbind].
      rewrite list_insert_insert. replace (mx - moved w + moved w) with mx by lia. rewrite u64_id by lia.
      rewrite (list_insert_id _ _ _ Hmx).
      eexists _, _. split; [reflexivity|]. cbn [all_work total_work]. split_and!; [done|done|done|done|].
      intros i t v. cbn [all_work total_work]. intros Ht Hv. unfold all5 in Hv.
      destruct (decide (i = imax)) as [->|Hi].
      + rewrite !list_lookup_alter in Hv. unfold all1 in Hv. rewrite list_lookup_insert in Hv by done.
        cbn in Hv. injection Hv as <-. rewrite Hmx in Ht. injection Ht as <-.
        rewrite !area_app. pose proof (area_perm _ _ (delete_Permutation ws j w Hw)) as Hd.
        unfold area in Hd at 2. simpl in Hd. fold (area (delete j ws)) in Hd.
        unfold moved in Hmv. fold n in Hmv. unfold area at 2 3 4 5. simpl. lia.
      + rewrite !list_lookup_alter_ne in Hv by done. unfold all1 in Hv. rewrite list_lookup_insert_ne in Hv by done.
        by apply (inv_area _ Hinv _ _ _ Ht Hv).
    - rewrite list_lookup_insert_ne by done. rewrite Hmn. cbn [rbind]. rewrite u64_id by lia.
      eexists _, _. split; [reflexivity|]. cbn [all_work total_work]. split_and!; [done|done|done|done|].
      intros i t v. cbn [all_work total_work]. intros Ht Hv. unfold all5 in Hv.
      assert (Hlt : length (total_work s) = length (all_work s)) by (by rewrite (inv_len _ Hinv)).
      destruct (decide (i = imin)) as [->|Hi].
      + rewrite !list_lookup_alter in Hv. rewrite !list_lookup_alter_ne in Hv by done. unfold all1 in Hv.
        rewrite list_lookup_insert_ne in Hv by done.
        rewrite list_lookup_insert in Ht by (rewrite insert_length; lia). injection Ht as <-.
        destruct (all_work s !! imin) as [ws'|] eqn:Hws'; [|done]. cbn in Hv. injection Hv as <-.
        pose proof (inv_area _ Hinv _ _ _ Hmn Hws'). rewrite !area_app. unfold area at 2 3. simpl.
        unfold moved. fold n. lia.
      + rewrite 2!list_lookup_alter_ne in Hv by done. rewrite list_lookup_insert_ne in Ht by done.
        destruct (decide (i = imax)) as [->|Hi'].
        * rewrite !list_lookup_alter in Hv. unfold all1 in Hv. rewrite list_lookup_insert in Hv by done.
          cbn in Hv. injection Hv as <-. rewrite list_lookup_insert in Ht by lia. injection Ht as <-.
          rewrite !area_app. pose proof (area_perm _ _ (delete_Permutation ws j w Hw)) as Hd.
          unfold area in Hd at 2. simpl in Hd. fold (area (delete j ws)) in Hd.
          unfold moved in Hmv |- *. fold n in Hmv |- *. unfold area at 2 3. simpl. lia.
        * rewrite !list_lookup_alter_ne in Hv by done. unfold all1 in Hv. rewrite list_lookup_insert_ne in Hv by done.
          rewrite list_lookup_insert_ne in Ht by done. by apply (inv_area _ Hinv _ _ _ Ht Hv).
  Qed.

  (** ** One iteration *)
  Lemma constraints_ok total : (0 < length total)%nat -> (forall t, t ∈ total -> 0 <= t <= N * N) ->
    exists b, fulfills_constraints max_work_difference rel total = Ok b /\
      (b = true <-> balanced max_work_difference rel total).
  Proof.
    intros Hl Hb. destruct total as [|t0 ts]; [simpl in Hl; lia|].
    unfold fulfills_constraints, lget. cbn [lookup list_lookup rbind tail].
    destruct (min_max t0 ts) as [mn mx] eqn:E. apply min_max_spec in E as [Hmn Hmx].
    pose proof (Hb mn (proj1 Hmn)). pose proof (Hb mx (proj1 Hmx)).
    pose proof (proj2 Hmx mn (proj1 Hmn)). rewrite u64_id by lia.
    eexists; split; [reflexivity|]. split.
    - intros Hc. exists mn, mx. split; [done|]. split; [done|].
      destruct (Z.ltb_spec (mx - mn) max_work_difference); [by left|right].
      destruct (Z.ltb_spec 0 mn); [|done]. destruct (Z.ltb_spec 0 mx); [|done]. done.
    - intros (mn'&mx'&Hmn'&Hmx'&Hc). rewrite (is_min_unique _ _ _ Hmn' Hmn) in Hc.
      rewrite (is_max_unique _ _ _ Hmx' Hmx) in Hc.
      destruct (Z.ltb_spec (mx - mn) max_work_difference); [done|]. destruct Hc as [?|[? Hr]]; [lia|].
      destruct (Z.ltb_spec 0 mn); [|lia]. destruct (Z.ltb_spec 0 mx); [done|lia].
  Qed.

  (** What one iteration does to the packages and the totals. *)
  Definition split_rel (s s' : sched) (w : work) : Prop :=
    (exists rest, concat (all_work s) ≡ₚ w :: rest /\ concat (all_work s') ≡ₚ quarters w ++ rest) /\
    min_work_size < wN w /\ 0 <= wN w.

  Lemma elem_concat (all : list (list work)) i ws w : all !! i = Some ws -> w ∈ ws -> w ∈ concat all.
  Proof.
    clear. intros Hi Hw. apply elem_of_list_In, in_concat. exists ws.
    split; apply elem_of_list_In; [by eapply elem_of_list_lookup_2|done].
  Qed.

  Lemma inv_split s s' w : inv s -> split_rel s s' w ->
    length (all_work s') = length (total_work s') -> (0 < length (total_work s'))%nat -> row_ok s' ->
    sumZ (total_work s') = N * N -> Forall (fun t => 0 <= t) (total_work s') -> inv s'.
  Proof.
    intros Hinv ((rest&Hc&Hc')&Hs&Hw0) H1 H2 H3 H4 H5.
    assert (Hin : inside N w).
    { pose proof (inv_in _ Hinv) as Hf. rewrite Hc in Hf. by apply Forall_cons in Hf as [? _]. }
    assert (Hrest : Forall (inside N) rest).
    { pose proof (inv_in _ Hinv) as Hf. rewrite Hc in Hf. by apply Forall_cons in Hf as [_ ?]. }
    pose proof (half_bounds (wN w)) as Hh.
    constructor; try done.
    - rewrite Hc'. apply Forall_app. split; [|done]. unfold inside in Hin |- *. unfold quarters.
      repeat (apply Forall_cons; split; [simpl; lia|]). by apply Forall_nil.
    - intros i j. pose proof (inv_hits _ Hinv i j) as Hh1. rewrite (hits_perm _ _ _ _ Hc) in Hh1.
      rewrite (hits_perm _ _ _ _ Hc'), hits_app. pose proof (hits_quarters i j w Hw0).
      change (w :: rest) with ([w] ++ rest) in Hh1. rewrite hits_app in Hh1. lia.
    - intros v Hv. rewrite Hc' in Hv. apply elem_of_app in Hv as [Hv|Hv].
      + destruct (inv_size _ Hinv w) as (k&Hk&Hwk&_). { rewrite Hc. by left. }
        exists (k + 1). split; [lia|].
        assert (wN v = wN w / 2) as ->.
        { unfold quarters in Hv. repeat (apply elem_of_cons in Hv as [->|Hv]; [done|]). by apply elem_of_nil in Hv. }
        rewrite Hwk. rewrite Z.div_div by (try lia; apply Z.pow_pos_nonneg; lia).
        rewrite Z.pow_add_r by lia. split; [done|]. right. rewrite Z.add_simpl_r. lia.
      + apply (inv_size _ Hinv). rewrite Hc. by right.
  Qed.

  Lemma insert_elem (l : list Z) i x t : t ∈ <[i := x]> l -> t = x \/ t ∈ l.
  Proof. clear.
    intros [k Hk]%elem_of_list_lookup. destruct (decide (k = i)) as [->|].
    - left. assert (i < length l)%nat by (apply lookup_lt_Some in Hk; by rewrite insert_length in Hk).
      rewrite list_lookup_insert in Hk by done. by injection Hk.
    - right. rewrite list_lookup_insert_ne in Hk by done. by eapply elem_of_list_lookup_2.
  Qed.

  Lemma step_cases s : inv s ->
    (step s = Ok None /\ (balanced max_work_difference rel (total_work s) \/ stuck min_work_size s)) \/
    (exists s' w, step s = Ok (Some s') /\ ~ balanced max_work_difference rel (total_work s) /\
       split_rel s s' w /\ inv s' /\ length (total_work s') = length (total_work s) /\
       (forall t t', is_max t (total_work s) -> is_max t' (total_work s') -> t' <= t) /\
       (forall t t', is_min t (total_work s) -> is_min t' (total_work s') -> t <= t')).
  Proof.
    intros Hinv. pose proof (fun t => inv_total s t Hinv) as Hb.
    unfold sched_step. destruct (constraints_ok (total_work s) (inv_pos _ Hinv) Hb) as (b&->&Hbal). cbn [rbind].
    destruct b; [left; split; [done|]; left; by apply Hbal|].
    destruct (extremes_ok (total_work s) (inv_pos _ Hinv)) as (e&->&Hmax&Hmaxs&Hmin&Hmini). cbn [rbind].
    pose proof (proj2 Hmax _ (proj1 Hmin)) as Hle. pose proof (Hb _ (proj1 Hmin)). pose proof (Hb _ (proj1 Hmax)).
    destruct (find_ok (all_work s) (e_max e) (e_min e) (e_maxs e)) as [[-> Hno]|(i&j&ws&w&->&Hi&Hws&Hw&Hs&Hd)]; [lia|lia| | |].
    - intros i Hi. apply Hmaxs in Hi. assert (i < length (all_work s))%nat as Hil.
      { rewrite (inv_len _ Hinv). by eapply lookup_lt_Some. }
      destruct (lookup_lt_is_Some_2 _ _ Hil) as [ws Hws]. exists ws. split; [done|]. intros w Hw.
      pose proof (inv_area _ Hinv _ _ _ Hi Hws). pose proof (area_elem _ _ Hw). lia.
    - left. cbn [rbind]. split; [done|]. right. exists (e_min e), (e_max e). split_and!; try done.
      intros i ws w Hi Hws Hw Hs. apply (Hno i ws); try done. by apply Hmaxs.
    - right. cbn [rbind]. apply Hmaxs in Hi.
      destruct (split_ok s i j (e_minidx e) ws w _ _ Hinv Hws Hw Hi Hmini) as (s'&rest&->&Hc&Hc'&Hlen&Htot&Hrow).
      cbn [rbind]. exists s', w.
      assert (Hin : inside N w).
      { pose proof (inv_in _ Hinv) as Hf. rewrite Hc in Hf. by apply Forall_cons in Hf as [? _]. }
      destruct Hin as (_&_&Hw0&_).
      assert (Hsr : split_rel s s' w). { split; [by exists rest|done]. }
      assert (Hmv : 0 <= moved w /\ moved w <= e_max e - e_min e).
      { unfold diff_after in Hd. pose proof (half_bounds (wN w)). pose proof (half_bounds (wN w * wN w)).
        unfold moved. set (n := wN w / 2) in *. assert (4 * (n * n) <= wN w * wN w) by nia. split; [nia|].
        set (h := wN w * wN w / 2) in *. lia. }
      assert (Hil : (i < length (total_work s))%nat) by (by eapply lookup_lt_Some).
      assert (Hml : (e_minidx e < length (total_work s))%nat) by (by eapply lookup_lt_Some).
      assert (Hlt : length (total_work s') = length (total_work s)).
      { rewrite Htot. case_decide; [done|]. by rewrite !insert_length. }
      assert (Helem : forall t, t ∈ total_work s' -> e_min e <= t <= e_max e).
      { intros t Ht. rewrite Htot in Ht.
        assert (forall t, t ∈ total_work s -> e_min e <= t <= e_max e) as Hold
          by (intros t' Ht'; split; [by apply (proj2 Hmin)|by apply (proj2 Hmax)]).
        case_decide; [by apply Hold|].
        apply insert_elem in Ht as [->|[->|Ht]%insert_elem]; [lia|lia|by apply Hold]. }
      split_and!; try done.
      + intros Hbl. by apply Hbal in Hbl.
      + eapply inv_split; try done.
        * rewrite Hlt, Hlen. apply (inv_len _ Hinv).
        * rewrite Hlt. apply (inv_pos _ Hinv).
        * rewrite Htot. case_decide; [apply (inv_sum _ Hinv)|].
          rewrite (sumZ_insert _ _ (e_min e)) by (by rewrite list_lookup_insert_ne).
          rewrite (sumZ_insert _ _ _ _ Hi). rewrite (inv_sum _ Hinv). lia.
        * apply Forall_forall. intros t Ht. specialize (Helem _ Ht). lia.
      + intros t t' Ht Ht'. rewrite (is_max_unique _ _ _ Ht Hmax). by apply Helem, Ht'.
      + intros t t' Ht Ht'. rewrite (is_min_unique _ _ _ Ht Hmin). by apply Helem, Ht'.
  Qed.

  Lemma init_inv n s : sched_init N n = Ok s -> inv s.
  Proof.
    destruct n as [|n]; [done|]. cbn [sched_init]. intros [= <-]. rewrite u64_id by lia.
    assert (Hcc : concat ([Work 0 0 N] :: replicate n []) = [Work 0 0 N]).
    { simpl. f_equal. clear. induction n; [done|]. simpl. done. }
    constructor; cbn [all_work total_work]; rewrite ?Hcc.
    - simpl. by rewrite !replicate_length.
    - simpl. lia.
    - apply Forall_singleton. unfold inside. simpl. lia.
    - intros i j. rewrite hits_cons, hits_nil. destruct (decide _); lia.
    - intros [|i] t ws; simpl.
      + intros [= <-] [= <-]. unfold area. simpl. lia.
      + intros [-> _]%lookup_replicate [-> _]%lookup_replicate. unfold area. simpl. lia.
    - simpl. assert (sumZ (replicate n 0) = 0) as ->; [|lia]. clear. induction n; simpl; lia.
    - apply Forall_cons. split; [lia|]. apply Forall_replicate. lia.
    - intros w ->%elem_of_list_singleton. exists 0. split; [lia|]. simpl. rewrite Z.div_1_r. auto.
  Qed.

  (** ** The whole loop *)
  Definition reach (n : nat) (s : sched) : Prop :=
    exists s0, sched_init N n = Ok s0 /\ rtc (fun s s' => step s = Ok (Some s')) s0 s.

  Lemma step_inv s s' : inv s -> step s = Ok (Some s') -> inv s'.
  Proof.
    intros Hi Hs. destruct (step_cases s Hi) as [[He _]|(s2&w&He&_&_&Hi2&_)]; rewrite Hs in He; [done|].
    by injection He as ->.
  Qed.
  Lemma reach_inv n s : reach n s -> inv s.
  Proof.
    intros (s0&H0&Hr). apply init_inv in H0. clear -Hr H0 HN HN2 Hmws.
    induction Hr as [s|s s1 s2 H1 H2 IH]; [done|]. apply IH. by eapply step_inv.
  Qed.
  Lemma step_cubes s s' : inv s -> step s = Ok (Some s') -> cubes (concat (all_work s')) < cubes (concat (all_work s)).
  Proof.
    intros Hi Hs. destruct (step_cases s Hi) as [[He _]|(s2&w&He&_&((rest&Hc&Hc')&Hw&Hw0)&_)]; rewrite Hs in He; [done|].
    injection He as <-. rewrite (cubes_perm _ _ Hc), (cubes_perm _ _ Hc'), cubes_app.
    pose proof (cubes_quarters w ltac:(lia)) as Hq. unfold cubes in Hq at 2. simpl in Hq.
    unfold cubes at 3. simpl. fold (cubes rest). lia.
  Qed.
  Lemma cubes_nonneg s : inv s -> 0 <= cubes (concat (all_work s)).
  Proof.
    intros Hi. pose proof (inv_in _ Hi) as Hf. unfold cubes. induction Hf as [|w ws Hw Hf IH]; simpl; [lia|].
    destruct Hw as (_&_&Hn&_). assert (0 <= wN w * wN w * wN w) by nia. lia.
  Qed.

  Lemma loop_ok fuel s : inv s -> cubes (concat (all_work s)) < Z.of_nat fuel ->
    exists s', sched_loop min_work_size max_work_difference rel fuel s = Ok s' /\
      rtc (fun s s' => step s = Ok (Some s')) s s' /\ step s' = Ok None.
  Proof.
    revert s. induction fuel as [|fuel IH]; intros s Hi Hf.
    { pose proof (cubes_nonneg s Hi). lia. }
    simpl. destruct (step_cases s Hi) as [[He _]|(s2&w&He&_&_&Hi2&_)]; rewrite He; cbn [rbind].
    - exists s. split_and!; [done|apply rtc_refl|done].
    - pose proof (step_cubes _ _ Hi He). destruct (IH s2 Hi2) as (s'&H1&H2&H3); [lia|].
      exists s'. split_and!; [done| |done]. by eapply rtc_l.
  Qed.
  Lemma loop_mono fuel fuel' s s' : (fuel <= fuel')%nat ->
    sched_loop min_work_size max_work_difference rel fuel s = Ok s' ->
    sched_loop min_work_size max_work_difference rel fuel' s = Ok s'.
  Proof. clear.
    revert fuel' s. induction fuel as [|fuel IH]; intros [|fuel'] s Hl; simpl; try done; [lia|].
    destruct (step s) as [[s2|]|]; simpl; try done. apply IH. lia.
  Qed.
  Lemma loop_reach fuel s s' : sched_loop min_work_size max_work_difference rel fuel s = Ok s' ->
    rtc (fun s s' => step s = Ok (Some s')) s s' /\ step s' = Ok None.
  Proof. clear.
    revert s. induction fuel as [|fuel IH]; intros s; simpl; [done|].
    destruct (step s) as [[s2|]|] eqn:E; simpl; try done.
    - intros [Hr Hs]%IH. split; [|done]. by eapply rtc_l.
    - intros [= <-]. split; [apply rtc_refl|done].
  Qed.

  Lemma state_reach fuel n s : create_schedule_state N min_work_size max_work_difference rel fuel n = Ok s ->
    reach n s /\ step s = Ok None.
  Proof. clear.
    unfold create_schedule_state, reach. destruct (sched_init N n) as [s0|]; [|done]. simpl.
    intros [Hr Hs]%loop_reach. split; [by exists s0|done].
  Qed.

  Lemma init_cubes n s : sched_init N n = Ok s -> cubes (concat (all_work s)) = N * N * N.
  Proof. clear.
    destruct n as [|n]; [done|]. intros [= <-]. simpl.
    assert (concat (replicate n ([] : list work)) = []) as -> by (induction n; [done|simpl; done]).
    unfold cubes. simpl. lia.
  Qed.

  Lemma schedule_ok fuel n : (0 < n)%nat -> N * N * N < Z.of_nat fuel ->
    exists s, create_schedule_state N min_work_size max_work_difference rel fuel n = Ok s.
  Proof.
    intros Hn Hf. unfold create_schedule_state. destruct (sched_init N n) as [s0|] eqn:E0; [|by destruct n; [lia|]].
    simpl. destruct (loop_ok fuel s0) as (s&Hs&_); [by eapply init_inv|by rewrite (init_cubes _ _ E0)|]. by exists s.
  Qed.

  Lemma no_infinite_run n (f : nat -> sched) : sched_init N n = Ok (f 0%nat) ->
    (forall i, step (f i) = Ok (Some (f (S i)))) -> False.
  Proof.
    intros H0 Hs. assert (Hi : forall i, inv (f i)).
    { induction i as [|i IH]; [by eapply init_inv|]. by eapply step_inv. }
    assert (Hd : forall i, cubes (concat (all_work (f i))) + Z.of_nat i <= cubes (concat (all_work (f 0%nat)))).
    { induction i as [|i IH]; [lia|]. pose proof (step_cubes _ _ (Hi i) (Hs i)). lia. }
    set (k := Z.to_nat (cubes (concat (all_work (f 0%nat))) + 1)).
    specialize (Hd k). pose proof (cubes_nonneg _ (Hi k)). pose proof (cubes_nonneg _ (Hi 0%nat)). lia.
  Qed.

  (** ** Coverage *)
  Lemma step_hits_le i j s s' : inv s -> step s = Ok (Some s') ->
    (hits i j (concat (all_work s')) <= hits i j (concat (all_work s)))%nat.
  Proof.
    intros Hi Hs. destruct (step_cases s Hi) as [[He _]|(s2&w&He&_&((rest&Hc&Hc')&Hw&Hw0)&_)]; rewrite Hs in He; [done|].
    injection He as <-. rewrite (hits_perm _ _ _ _ Hc), (hits_perm _ _ _ _ Hc'), hits_app.
    change (w :: rest) with ([w] ++ rest). rewrite hits_app. pose proof (hits_quarters i j w Hw0). lia.
  Qed.
  Lemma rtc_hits_le i j s s' : inv s -> rtc (fun s s' => step s = Ok (Some s')) s s' ->
    (hits i j (concat (all_work s')) <= hits i j (concat (all_work s)))%nat.
  Proof.
    intros Hi Hr. induction Hr as [s|s s1 s2 H1 H2 IH]; [done|].
    pose proof (step_hits_le i j _ _ Hi H1). specialize (IH (step_inv _ _ Hi H1)). lia.
  Qed.
  Lemma init_hits n s i j : sched_init N n = Ok s ->
    hits i j (concat (all_work s)) = (if decide (0 <= i < N /\ 0 <= j < N) then 1%nat else 0%nat).
  Proof. clear.
    destruct n as [|n]; [done|]. intros [= <-]. simpl.
    assert (concat (replicate n ([] : list work)) = []) as -> by (induction n; [done|simpl; done]).
    rewrite hits_cons, hits_nil. unfold has. simpl.
    repeat case_decide; lia.
  Qed.
  Lemma reach_even n s : even_chain N min_work_size -> reach n s ->
    (forall i j, hits i j (concat (all_work s)) = (if decide (0 <= i < N /\ 0 <= j < N) then 1%nat else 0%nat)) /\
    area (concat (all_work s)) = N * N.
  Proof.
    intros Hev (s0&H0&Hr).
    assert (Hb : (forall i j, hits i j (concat (all_work s0)) = (if decide (0 <= i < N /\ 0 <= j < N) then 1%nat else 0%nat)) /\
       area (concat (all_work s0)) = N * N).
    { split; [intros i j; by eapply init_hits|]. destruct n as [|n]; [done|]. injection H0 as <-. simpl.
      assert (concat (replicate n ([] : list work)) = []) as -> by (clear; induction n; [done|simpl; done]).
      unfold area. simpl. lia. }
    apply init_inv in H0. clear -Hr H0 Hb Hev HN HN2 Hmws. revert Hb.
    induction Hr as [s|s s1 s2 H1 H2 IH]; [done|]. intros [Hh Ha]. apply IH; [by eapply step_inv|].
    destruct (step_cases s H0) as [[He _]|(s'&w&He&_&((rest&Hc&Hc')&Hw&Hw0)&_)]; rewrite H1 in He; [done|].
    injection He as <-.
    assert (Heven : (2 | wN w)).
    { apply Hev; [|done]. apply (inv_size _ H0). rewrite Hc. by left. }
    split.
    - intros i j. rewrite <- Hh. rewrite (hits_perm _ _ _ _ Hc), (hits_perm _ _ _ _ Hc'), hits_app.
      rewrite hits_quarters_even by done. change (w :: rest) with ([w] ++ rest). by rewrite hits_app.
    - rewrite (area_perm _ _ Hc) in Ha. rewrite (area_perm _ _ Hc'), area_app, area_quarters by done.
      unfold area in Ha at 1. simpl in Ha. fold (area rest) in Ha. destruct Heven as [q Hq].
      rewrite Hq in Ha |- *. rewrite Z.div_mul by lia. lia.
  Qed.

  (** Rows are exact when nothing is lost. *)
  Lemma rows_exact (all : list (list work)) (total : list Z) : length all = length total ->
    (forall i t ws, total !! i = Some t -> all !! i = Some ws -> area ws <= t) ->
    area (concat all) = sumZ total ->
    forall i t ws, total !! i = Some t -> all !! i = Some ws -> area ws = t.
  Proof. clear. revert all total.
    assert (forall all total, length all = length total ->
      (forall i t ws, total !! i = Some t -> all !! i = Some ws -> area ws <= t) ->
      area (concat all) <= sumZ total) as Hle.
    { induction all as [|ws all IH]; intros [|t total]; simpl; try done. intros [= Hl] Hr. rewrite area_app.
      pose proof (Hr 0%nat t ws eq_refl eq_refl). pose proof (IH total Hl (fun i => Hr (S i))). lia. }
    induction all as [|ws0 all IH]; intros [|t0 total]; simpl; try done.
    intros [= Hl] Hr Hs. rewrite area_app in Hs.
    pose proof (Hr 0%nat t0 ws0 eq_refl eq_refl). pose proof (Hle _ _ Hl (fun i => Hr (S i))).
    intros [|i] t ws; simpl.
    - intros [= <-] [= <-]. lia.
    - apply IH; [done|exact (fun i => Hr (S i))|lia].
  Qed.

  Lemma reach_rows_exact n s : even_chain N min_work_size -> reach n s ->
    forall i t ws, total_work s !! i = Some t -> all_work s !! i = Some ws -> area ws = t.
  Proof.
    intros Hev Hr. pose proof (reach_inv _ _ Hr) as Hi. destruct (reach_even _ _ Hev Hr) as [_ Ha].
    apply rows_exact; [apply (inv_len _ Hi)|apply (inv_area _ Hi)|]. by rewrite Ha, (inv_sum _ Hi).
  Qed.

  (** ** Odd sizes lose entries *)
  Lemma odd_first_step n s0 : (2 <= n)%nat -> Z.odd N = true -> min_work_size < N -> max_work_difference <= N * N ->
    sched_init N n = Ok s0 ->
    exists s1, step s0 = Ok (Some s1) /\ hits (N - 1) (N - 1) (concat (all_work s1)) = 0%nat.
  Proof.
    intros Hn Hodd Hm Hd H0. pose proof (init_inv _ _ H0) as Hi.
    destruct n as [|[|n]]; [lia|lia|]. injection H0 as H0.
    assert (Hcc : concat (all_work s0) = [Work 0 0 N]).
    { rewrite <- H0. simpl. clear. induction n; [done|simpl; done]. }
    assert (Hmax : is_max (N * N) (total_work s0)).
    { rewrite <- H0. simpl. rewrite u64_id by lia. split; [by left|]. intros t [->|[->|[-> _]%elem_of_replicate]%elem_of_cons]%elem_of_cons; nia. }
    assert (Hmin : is_min 0 (total_work s0)).
    { rewrite <- H0. simpl. rewrite u64_id by lia. split; [right; by left|]. intros t [->|[->|[-> _]%elem_of_replicate]%elem_of_cons]%elem_of_cons; nia. }
    assert (0 < N). { destruct (decide (N = 0)) as [->|]; [done|lia]. }
    destruct (step_cases s0 Hi) as [[He [Hbal|Hst]]|(s1&w&He&_&((rest&Hc&Hc')&Hw&Hw0)&_)].
    - destruct Hbal as (mn&mx&Hmn&Hmx&Hc). rewrite (is_min_unique _ _ _ Hmn Hmin), (is_max_unique _ _ _ Hmx Hmax) in Hc. lia.
    - destruct Hst as (mn&mx&Hmn&Hmx&Hc). rewrite (is_min_unique _ _ _ Hmn Hmin), (is_max_unique _ _ _ Hmx Hmax) in Hc.
      specialize (Hc 0%nat [Work 0 0 N] (Work 0 0 N)). rewrite <- H0 in Hc. cbn [all_work total_work] in Hc.
      rewrite u64_id in Hc by lia. specialize (Hc eq_refl eq_refl ltac:(by left) Hm).
      unfold diff_after in Hc. simpl in Hc. pose proof (half_bounds (N * N)). set (h := N * N / 2) in *. nia.
    - exists s1. split; [done|]. rewrite Hcc in Hc.
      apply Permutation_singleton_l in Hc. simplify_eq. rewrite (hits_perm _ _ _ _ Hc'), app_nil_r.
      unfold quarters. simpl. rewrite !hits_cons, hits_nil. unfold has. simpl.
      apply Z.odd_spec in Hodd as [q Hq]. assert (N / 2 = q) as ->.
      { rewrite Hq. rewrite Z.mul_comm, Z.div_add_l by lia. simpl. change (1 / 2) with 0. lia. }
      repeat (rewrite decide_False by lia). done.
  Qed.
  Lemma odd_lost fuel n s : (2 <= n)%nat -> Z.odd N = true -> min_work_size < N -> max_work_difference <= N * N ->
    create_schedule_state N min_work_size max_work_difference rel fuel n = Ok s ->
    hits (N - 1) (N - 1) (concat (all_work s)) = 0%nat.
  Proof.
    intros Hn Hodd Hm Hd [(s0&H0&Hr) Hs]%state_reach.
    destruct (odd_first_step n s0 Hn Hodd Hm Hd H0) as (s1&H1&Hz).
    pose proof (init_inv _ _ H0) as Hi. pose proof (step_inv _ _ Hi H1) as Hi1.
    inversion Hr as [|s0' s1' s' H1' Hr']; subst.
    - rewrite H1 in Hs. done.
    - rewrite H1 in H1'. injection H1' as <-. pose proof (rtc_hits_le (N - 1) (N - 1) _ _ Hi1 Hr'). lia.
  Qed.

  (** ** Facts about the returned schedule *)
  Lemma create_state fuel n all : create_schedule N min_work_size max_work_difference rel fuel n = Ok all ->
    exists s, create_schedule_state N min_work_size max_work_difference rel fuel n = Ok s /\ all = all_work s.
  Proof. clear.
    unfold create_schedule. destruct (create_schedule_state _ _ _ _ _ _) as [s|]; [|done].
    intros [= <-]. by exists s.
  Qed.
  Lemma schedule_terminates fuel n : (0 < n)%nat -> N * N * N < Z.of_nat fuel ->
    exists all, create_schedule N min_work_size max_work_difference rel fuel n = Ok all /\
      forall fuel', (fuel <= fuel')%nat -> create_schedule N min_work_size max_work_difference rel fuel' n = Ok all.
  Proof.
    intros Hn Hf. destruct (schedule_ok fuel n Hn Hf) as (s&Hs). exists (all_work s).
    assert (forall fuel', (fuel <= fuel')%nat -> create_schedule N min_work_size max_work_difference rel fuel' n = Ok (all_work s)) as Hm.
    { intros fuel' Hle. unfold create_schedule. unfold create_schedule_state in *.
      destruct (sched_init N n) as [s0|]; [|done]. cbn [rbind] in *. by rewrite (loop_mono _ _ _ _ Hle Hs). }
    split; [by apply Hm|done].
  Qed.
  Lemma schedule_inv fuel n all : create_schedule N min_work_size max_work_difference rel fuel n = Ok all ->
    exists s, inv s /\ reach n s /\ step s = Ok None /\ all = all_work s.
  Proof.
    intros (s&[Hr Hs]%state_reach&->)%create_state. exists s. split_and!; try done. by eapply reach_inv.
  Qed.
  Lemma schedule_disjoint fuel n all : create_schedule N min_work_size max_work_difference rel fuel n = Ok all ->
    Forall (inside N) (concat all) /\ forall i j, (hits i j (concat all) <= 1)%nat.
  Proof. intros (s&Hi&_&_&->)%schedule_inv. split; [apply (inv_in _ Hi)|apply (inv_hits _ Hi)]. Qed.
  Lemma reach_len n s : reach n s -> length (all_work s) = n /\ length (total_work s) = n.
  Proof.
    intros (s0&H0&Hr). assert (length (total_work s0) = n).
    { destruct n; [done|]. injection H0 as <-. simpl. by rewrite replicate_length. }
    apply init_inv in H0. assert (length (total_work s) = n /\ inv s) as [Hl Hi].
    { clear -Hr H0 H HN HN2 Hmws. induction Hr as [s|s s1 s2 H1 H2 IH]; [done|].
      pose proof (step_inv _ _ H0 H1). apply IH; [done|].
      destruct (step_cases s H0) as [[He _]|(s'&w&He&_&_&_&Hlt&_)]; rewrite H1 in He; [done|]. injection He as <-. lia. }
    split; [|done]. by rewrite (inv_len _ Hi).
  Qed.
  Lemma schedule_length fuel n all : create_schedule N min_work_size max_work_difference rel fuel n = Ok all -> length all = n.
  Proof. intros (s&_&Hr&_&->)%schedule_inv. by apply reach_len. Qed.
  Lemma schedule_cover fuel n all : even_chain N min_work_size ->
    create_schedule N min_work_size max_work_difference rel fuel n = Ok all ->
    forall i j, hits i j (concat all) = (if decide (0 <= i < N /\ 0 <= j < N) then 1%nat else 0%nat).
  Proof. intros Hev (s&_&Hr&_&->)%schedule_inv. by apply (reach_even n s Hev Hr). Qed.

  Lemma reach_lost n s i j : reach n s -> 0 <= i < N -> 0 <= j < N -> hits i j (concat (all_work s)) = 0%nat ->
    exists m, size_of N min_work_size m /\ min_work_size < m /\ Z.odd m = true.
  Proof.
    intros (s0&H0&Hr) Hi Hj. pose proof (init_hits n s0 i j H0) as Hh. rewrite decide_True in Hh by done.
    apply init_inv in H0. clear -Hr H0 Hh HN HN2 Hmws. revert Hh.
    induction Hr as [s|s s1 s2 H1 H2 IH]; [lia|]. intros Hh Hz.
    destruct (step_cases s H0) as [[He _]|(s'&w&He&_&((rest&Hc&Hc')&Hw&Hw0)&_)]; rewrite H1 in He; [done|].
    injection He as <-. destruct (Z.odd (wN w)) eqn:Hodd.
    - exists (wN w). split_and!; try done. apply (inv_size _ H0). rewrite Hc. by left.
    - apply IH; [by eapply step_inv| |done]. rewrite <- Hh.
      rewrite (hits_perm _ _ _ _ Hc), (hits_perm _ _ _ _ Hc'), hits_app.
      rewrite hits_quarters_even; [|done|].
      + change (w :: rest) with ([w] ++ rest). by rewrite hits_app.
      + rewrite <- Z.negb_even in Hodd. apply negb_false_iff, Z.even_spec in Hodd as [q Hq]. exists q. lia.
  Qed.
  Lemma schedule_lost_odd fuel n all i j :
    create_schedule N min_work_size max_work_difference rel fuel n = Ok all -> 0 <= i < N -> 0 <= j < N -> hits i j (concat all) = 0%nat ->
    exists m, size_of N min_work_size m /\ min_work_size < m /\ Z.odd m = true.
  Proof. intros (s&_&Hr&_&->)%schedule_inv. by apply (reach_lost n s). Qed.
  Lemma schedule_odd_lost fuel n all : (2 <= n)%nat -> Z.odd N = true -> min_work_size < N -> max_work_difference <= N * N ->
    create_schedule N min_work_size max_work_difference rel fuel n = Ok all -> hits (N - 1) (N - 1) (concat all) = 0%nat.
  Proof. intros Hn Ho Hm Hd (s&Hs&->)%create_state. by eapply odd_lost. Qed.
  Lemma schedule_monotone n s s' t t' u u' : reach n s -> step s = Ok (Some s') ->
    is_max t (total_work s) -> is_max t' (total_work s') -> is_min u (total_work s) -> is_min u' (total_work s') ->
    t' <= t /\ u <= u' /\ ~ balanced max_work_difference rel (total_work s).
  Proof.
    intros Hr Hs Ht Ht' Hu Hu'. apply reach_inv in Hr.
    destruct (step_cases s Hr) as [[He _]|(s2&w&He&Hb&_&_&_&Hmx&Hmn)]; rewrite Hs in He; [done|]. injection He as <-.
    split_and!; [by apply Hmx|by apply Hmn|done].
  Qed.
  Lemma schedule_exit fuel n s : create_schedule_state N min_work_size max_work_difference rel fuel n = Ok s ->
    balanced max_work_difference rel (total_work s) \/ stuck min_work_size s.
  Proof.
    intros [Hr Hs]%state_reach. apply reach_inv in Hr.
    destruct (step_cases s Hr) as [[_ ?]|(s2&w&He&_)]; [done|]. by rewrite Hs in He.
  Qed.
  Lemma schedule_accounting n s : reach n s ->
    length (all_work s) = n /\ length (total_work s) = n /\ sumZ (total_work s) = N * N /\
    Forall (fun t => 0 <= t <= N * N) (total_work s) /\
    (forall i t ws, total_work s !! i = Some t -> all_work s !! i = Some ws -> area ws <= t).
  Proof.
    intros Hr. destruct (reach_len n s Hr). pose proof (reach_inv _ _ Hr) as Hi. split_and!; try done.
    - apply (inv_sum _ Hi).
    - apply Forall_forall. intros t. by apply inv_total.
    - apply (inv_area _ Hi).
  Qed.
  Lemma schedule_no_wrap n s mx mn i ws w : reach n s ->
    is_max mx (total_work s) -> is_min mn (total_work s) ->
    total_work s !! i = Some mx -> all_work s !! i = Some ws -> w ∈ ws ->
    work_difference mx mn w = Ok (diff_after mx mn w) /\
    0 <= wN w * wN w / 2 <= mx /\ mn + wN w * wN w / 2 < 2 ^ 63 /\ 2 * (wN w / 2 * (wN w / 2)) <= mx.
  Proof.
    intros Hr Hmx Hmn Hi Hws Hw. pose proof (reach_inv _ _ Hr) as Hinv.
    pose proof (inv_total _ _ Hinv (proj1 Hmx)). pose proof (inv_total _ _ Hinv (proj1 Hmn)).
    pose proof (inv_area _ Hinv _ _ _ Hi Hws). pose proof (area_elem _ _ Hw).
    pose proof (half_bounds (wN w)). pose proof (half_bounds (wN w * wN w)).
    assert (Hin : inside N w).
    { pose proof (inv_in _ Hinv) as Hf. rewrite Forall_forall in Hf. apply Hf. by eapply elem_concat. }
    destruct Hin as (_&_&Hw0&_).
    split; [apply work_difference_ok; lia|]. set (h := wN w * wN w / 2) in *. set (q := wN w / 2) in *.
    assert (0 <= wN w * wN w) by nia. split; [lia|]. split; [lia|]. nia.
  Qed.
End Sched.

Lemma schedule_single_lost rel fuel : (2 < fuel)%nat -> rel 0 1 = false ->
  exists all, create_schedule 1 0 0 rel fuel 1 = Ok all /\ hits 0 0 (concat all) = 0%nat.
Proof.
  intros Hf Hr. destruct fuel as [|[|[|fuel]]]; [lia..|].
  eexists. split.
  - unfold create_schedule, create_schedule_state, sched_init. cbn [rbind].
    set (s0 := Sched _ _). set (s1 := Sched [[Work 0 0 0; Work 0 0 0; Work 0 0 0; Work 0 0 0]] [1]).
    assert (H0 : sched_step 0 0 rel s0 = Ok (Some s1)).
    { vm_compute. rewrite Hr. reflexivity. }
    assert (H1 : sched_step 0 0 rel s1 = Ok None).
    { vm_compute. rewrite Hr. reflexivity. }
    cbn [sched_loop]. rewrite H0. cbn [rbind]. rewrite H1. cbn [rbind]. reflexivity.
  - reflexivity.
Qed.
