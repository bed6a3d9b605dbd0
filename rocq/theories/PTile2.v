(** tile_view, iterate_tiles, undo_tiling and flat_index. *)
From Verif Require Import Base LoopFacts MIter PIter MTile SpecTile PTile.

#[local] Instance tid_inhabited : Inhabited tiling_info_dim := populate (Tiling 0 0).

(** * Views *)
Definition view_of (ti : list tiling_info_dim) (t : list nat) : tile_view :=
  TileView (row_major (counts_of ti) t * extent_prod (sizes_of ti)) t (counts_of ti) ti (extent_prod (sizes_of ti)).

Lemma tile_view_new_Ok ti t : length ti = 2 -> sizes_positive ti -> length t = 2 ->
  tile_view_new t ti = Ok (view_of ti t).
Proof.
  intros Hti Hp Ht. unfold tile_view_new.
  destruct t as [|t0 [|t1 [|? ?]]]; [done|done| |done]. cbn [lget lookup list_lookup rbind].
  rewrite <- Hti at 1.
  assert (Hc : foldR (seq 0 (length ti)) (fun d acc => let? i := lget ti d in let? n := tiles_of i in Ok (acc ++ [n])) []
               = Ok (counts_of ti)).
  { unfold counts_of. rewrite <- (collect_app ti (fun d => let? i := lget ti d in tiles_of i) (fun i => stride i / tile_size_dir i)).
    - apply foldR_ext. intros d s _. rewrite rbind_assoc. done.
    - intros d a Ha. rewrite (lget_Some _ _ _ Ha). cbn [rbind]. apply tiles_of_Ok.
      exact (Forall_lookup_1 _ _ _ _ Hp Ha). }
  rewrite Hc. cbn [rbind]. rewrite sizes_prod by done. cbn [rbind].
  rewrite <- Hti. rewrite counts_rev by (done || (cbn; lia)). cbn [rbind]. unfold view_of. by rewrite Nat.mul_1_l.
Qed.

Lemma iterate_tile_dim_lexs {S} ti (f : tile_view -> S -> res S) : sizes_positive ti -> forall n pre p s,
  n + length pre = length ti -> take (length pre) ti = pre ->
  iterate_tile_dim n (length pre) ti p f s
  = foldR (lexs (counts_of (drop (length pre) ti))) (fun t s => let? v := tile_view_new (p ++ t) ti in f v s) s.
Proof.
  intros Hp n. induction n as [|n IH]; intros pre p R Hn Hpre; cbn [iterate_tile_dim].
  - rewrite drop_ge by lia. cbn [counts_of fmap list_fmap lexs foldR]. rewrite app_nil_r.
    destruct (tile_view_new p ti) as [v|]; cbn [rbind]; [|done]. by destruct (f v R).
  - destruct (lookup_lt_is_Some_2 ti (length pre)) as [a Ha]; [lia|].
    rewrite (lget_Some _ _ _ Ha). cbn [rbind].
    rewrite tiles_of_Ok by exact (Forall_lookup_1 _ _ _ _ Hp Ha). cbn [rbind].
    rewrite (drop_S _ _ _ Ha). cbn [counts_of fmap list_fmap lexs]. rewrite foldR_concat.
    apply foldR_ext. intros x R' _.
    pose proof (IH (pre ++ [a]) (p ++ [x]) R') as IH'. rewrite app_length in IH'. cbn [length] in IH'.
    replace (length pre + 1) with (Datatypes.S (length pre)) in IH' by lia. rewrite IH'; [|lia|].
    + rewrite foldR_map. apply foldR_ext. intros. by rewrite <- app_assoc.
    + rewrite (take_S_r _ _ _ Ha). by rewrite Hpre.
Qed.
Lemma iterate_tiles_views {S} ti (f : tile_view -> S -> res S) s : length ti = 2 -> sizes_positive ti ->
  iterate_tiles ti f s = foldR (view_of ti <$> lexs (counts_of ti)) f s.
Proof.
  intros Hti Hp. unfold iterate_tiles. rewrite (iterate_tile_dim_lexs ti f Hp 2 []) by (cbn; lia || done).
  cbn [length]. rewrite drop_0, foldR_map. apply foldR_ext. intros t s' Ht. apply elem_of_lexs in Ht.
  apply within_counts_length in Ht. cbn [app]. rewrite tile_view_new_Ok by (done || lia). done.
Qed.
Lemma tv_flat_index_Ok ti t i : length ti = 2 -> length i = 2 ->
  tv_flat_index (view_of ti t) i = Ok (row_major (sizes_of ti) i).
Proof. intros Hti Hi. unfold tv_flat_index. cbn [tv_tiling_info view_of]. rewrite <- Hti. apply sizes_rev. lia. Qed.

Lemma views_spec {T} T0 (org R : list T) ti : length ti = 2 -> sizes_positive ti ->
  length org = extent_prod (strides_of ti) -> make_tiled T0 2 org ti = Ok R ->
  exists views : list tile_view,
    (forall S (f : tile_view -> S -> res S) s, iterate_tiles ti f s = foldR views f s) /\
    length views = extent_prod (counts_of ti) /\
    forall t, within t (counts_of ti) -> exists v,
      views !! row_major (counts_of ti) t = Some v /\
      tv_tile_index v = t /\ tv_tiles_dir v = counts_of ti /\ tv_size v = extent_prod (sizes_of ti) /\
      forall i, within i (sizes_of ti) -> exists x,
        org !! place_original ti t i = Some x /\
        tv_at_index R v i = Ok x /\ tv_at_offset R v (row_major (sizes_of ti) i) = Ok x.
Proof.
  intros Hti Hp Hlen HR. exists (view_of ti <$> lexs (counts_of ti)). split_and!.
  - intros. by apply iterate_tiles_views.
  - by rewrite fmap_length, lexs_length.
  - intros t Ht. exists (view_of ti t). split_and!; [by rewrite list_lookup_fmap, lexs_at|done..|].
    intros i Hi. pose proof (make_tiled_ok T0 org ti Hp Hlen) as (R' & HR' & [_ Htl] & _).
    rewrite Hti in HR'. rewrite HR in HR'. injection HR' as <-.
    destruct (Htl t i Ht Hi) as (x & Hx & HRx). exists x. split; [done|].
    unfold tv_at_index. rewrite tv_flat_index_Ok by (done || (apply within_sizes_length in Hi; lia)). cbn [rbind].
    unfold tv_at_offset. cbn [tv_base_offset view_of]. by split; apply lget_Some.
Qed.

(** * undo_tiling *)
Definition ubR {A} (r : res A) : Prop := match r with Ok _ => True | Fail e => is_ub e = true end.
Lemma ubR_bind {A B} (r : res A) (f : A -> res B) : ubR r -> (forall a, ubR (f a)) -> ubR (rbind r f).
Proof. destruct r; cbn; auto. Qed.
Lemma ubR_foldR {S X} (l : list X) (f : X -> S -> res S) s : (forall x s, ubR (f x s)) -> ubR (foldR l f s).
Proof. intros Hf. revert s. induction l as [|x l IH]; intros s; [done|]. cbn [foldR]. apply ubR_bind; auto. Qed.
Lemma ubR_lget {A} (l : list A) i : ubR (lget l i).
Proof. unfold lget. by destruct (l !! i). Qed.
Lemma ubR_lset {A} (l : list A) i x : ubR (lset l i x).
Proof. unfold lset. by destruct (i <? length l). Qed.
Lemma ubR_tiles i : ubR (tiles_of i).
Proof. unfold tiles_of. by destruct (_ =? _). Qed.
Lemma ubR_nest {S} dim n mn mx (f : list nat -> S -> res S) : (forall i s, ubR (f i s)) ->
  forall cur p s, ubR (nest_looped dim cur mn mx (replicate n 1) f p s).
Proof.
  intros Hf. induction dim as [|dim IH]; intros cur p s; cbn [nest_looped]; [apply Hf|].
  apply ubR_bind; [apply ubR_lget|intros lo]. apply ubR_bind; [apply ubR_lget|intros hi].
  destruct (lget (replicate n 1) cur) as [st|e] eqn:Hst; cbn [rbind].
  - unfold lget in Hst. destruct (replicate n 1 !! cur) eqn:E; [|done]. injection Hst as ->.
    apply lookup_replicate in E as [-> _]. unfold forR. rewrite andb_false_r. apply ubR_foldR. intros. apply IH.
  - pose proof (ubR_lget (replicate n 1) cur) as Hu. by rewrite Hst in Hu.
Qed.
Lemma ubR_rev dim v w : (forall d, ubR (v d)) -> (forall d, ubR (w d)) -> ubR (rev_offset dim v w).
Proof.
  intros Hv Hw. unfold rev_offset. apply ubR_bind; [|done]. apply ubR_foldR. intros.
  apply ubR_bind; [apply Hv|intros]. by apply ubR_bind.
Qed.
Ltac ubs := repeat first [apply ubR_lget | apply ubR_lset | apply ubR_tiles | exact I
  | apply ubR_foldR; intros | apply ubR_rev; intros | apply ubR_nest; intros | apply ubR_bind; [|intros]].
Lemma ubR_view t ti : ubR (tile_view_new t ti).
Proof. unfold tile_view_new. ubs. Qed.
Lemma ubR_iterate {S} ti (f : tile_view -> S -> res S) : (forall v s, ubR (f v s)) ->
  forall n cur p s, ubR (iterate_tile_dim n cur ti p f s).
Proof.
  intros Hf n. induction n as [|n IH]; intros cur p s; cbn [iterate_tile_dim].
  - apply ubR_bind; [apply ubR_view|intros; apply Hf].
  - ubs. apply IH.
Qed.
Lemma undo_body_ub {T} (T0 : T) R ti : length ti = 2 -> ubR (undo_tiling_body T0 R ti).
Proof.
  intros Hti. unfold undo_tiling_body. rewrite Hti. cbn [Nat.eqb negb].
  apply ubR_bind; [unfold tile_max; ubs|intros mx]. apply ubR_bind; [ubs|intros us].
  apply ubR_iterate. intros v s. apply ubR_bind; [ubs|intros off].
  apply ubR_nest. intros i U. apply ubR_bind; [ubs|intros o]. apply ubR_bind; [unfold flat_index; ubs|intros fo].
  apply ubR_bind; [unfold tv_at_index, tv_flat_index; ubs|intros x]. ubs.
Qed.
Lemma undo_never {T} (T0 : T) R ti :
  exists e, undo_tiling T0 R ti = Fail e /\ (if length ti =? 2 then is_ub e = true else e = EException).
Proof.
  unfold undo_tiling. destruct (Nat.eqb_spec (length ti) 2) as [Hti|Hti].
  - pose proof (undo_body_ub T0 R ti Hti) as Hu. destruct (undo_tiling_body T0 R ti) as [U|e]; cbn in *; eauto.
  - unfold undo_tiling_body. destruct (Nat.eqb_spec (length ti) 2); [done|]. cbn. eauto.
Qed.

(** A series of assignments *)
Lemma fold_sets {T} (L : list (nat * T)) : forall R, (forall c, c ∈ L -> c.1 < length R) ->
  exists U, foldR L (fun c R => lset R c.1 c.2) R = Ok U /\ length U = length R /\
    (forall q, U !! q = R !! q \/ exists x, (q, x) ∈ L /\ U !! q = Some x) /\
    (forall q, q ∉ L.*1 -> U !! q = R !! q) /\
    (NoDup L.*1 -> forall q x, (q, x) ∈ L -> U !! q = Some x).
Proof.
  induction L as [|[p x] L IH]; intros R Hlt.
  - exists R. split_and!; [done|done|by left|done|]. intros _ q y Hin. by apply elem_of_nil in Hin.
  - cbn [foldR]. unfold lset at 1. cbn [fst snd].
    assert (Hp : p < length R) by (apply (Hlt (p, x)); set_solver).
    destruct (Nat.ltb_spec p (length R)); [|lia]. cbn [rbind].
    destruct (IH (<[p:=x]> R)) as (U & HU & Hl & Hor & Hother & Hnd).
    { intros c Hc. rewrite insert_length. apply Hlt. set_solver. }
    exists U. rewrite insert_length in Hl. split_and!; [done|done| | |].
    + intros q. destruct (Hor q) as [Hq|(y & Hy & Hq)]; [|right; exists y; split; [set_solver|done]].
      destruct (decide (q = p)) as [->|Hne].
      * right. exists x. split; [set_solver|]. by rewrite Hq, list_lookup_insert.
      * left. by rewrite Hq, list_lookup_insert_ne.
    + intros q Hq. rewrite fmap_cons in Hq. cbn in Hq. apply not_elem_of_cons in Hq as [Hne Hq].
      rewrite Hother by done. by rewrite list_lookup_insert_ne.
    + rewrite fmap_cons. cbn. intros Hd q y Hin. apply NoDup_cons in Hd as [Hni Hd].
      apply elem_of_cons in Hin as [[= -> ->]|Hin]; [|by apply Hnd].
      rewrite Hother by done. by apply list_lookup_insert.
Qed.

Definition combine (ti : list tiling_info_dim) (t i : list nat) := zip_with Nat.add (zip_with Nat.mul t (sizes_of ti)) i.
Definition undo_place (ti : list tiling_info_dim) (t i : list nat) := row_major (reverse (strides_of ti)) (combine ti t i).

Lemma undo_body_fold {T} (T0 : T) R ti : length ti = 2 -> sizes_positive ti ->
  undo_tiling_body T0 R ti
  = foldR (coords ti) (fun c U => let? x := lget R (place_tiled ti c.1 c.2) in lset U (undo_place ti c.1 c.2) x)
      (replicate (length R) T0).
Proof.
  intros Hti Hp. unfold undo_tiling_body. rewrite Hti. cbn [Nat.eqb negb].
  pose proof (tile_max_Ok ti) as Hm. rewrite Hti in Hm. rewrite Hm. cbn [rbind].
  assert (Hs : foldR (seq 0 2) (fun d acc => let? i := lget ti d in Ok (acc ++ [stride i])) [] = Ok (strides_of ti)).
  { rewrite <- Hti. unfold strides_of. rewrite <- (collect_app ti (fun d => let? i := lget ti d in Ok (stride i)) stride).
    - apply foldR_ext. intros d s _. rewrite rbind_assoc. done.
    - intros d a Ha. rewrite (lget_Some _ _ _ Ha). done. }
  rewrite Hs. cbn [rbind]. rewrite iterate_tiles_views by done. rewrite foldR_map. unfold coords. rewrite foldR_concat.
  apply foldR_ext. intros t U Ht. apply elem_of_lexs in Ht. pose proof (within_counts_length _ _ Ht) as Hlt.
  rewrite foldR_map. cbn [tv_tile_index view_of].
  assert (Ho : foldR (seq 0 2) (fun d acc => let? t0 := lget t d in let? i := lget ti d in Ok (acc ++ [t0 * tile_size_dir i])) []
    = Ok (zip_with Nat.mul t (sizes_of ti))).
  { clear -Hti Hlt. destruct ti as [|a [|b [|? ?]]]; [done|done| |done].
    destruct t as [|t0 [|t1 [|? ?]]]; [done|done| |done]. reflexivity. }
  rewrite Ho. cbn [rbind].
  assert (Hl : length (sizes_of ti) = 2) by (unfold sizes_of; by rewrite fmap_length).
  pose proof (ml_loop_nest_lexs (S := list T) (sizes_of ti)) as Hn. rewrite Hl in Hn. rewrite Hn.
  apply foldR_ext. intros i U' Hi. apply elem_of_lexs in Hi. pose proof (within_sizes_length _ _ Hi) as Hli. cbn [fst snd].
  assert (Hc : foldR (seq 0 2) (fun d acc => let? i0 := lget i d in let? o := lget (zip_with Nat.mul t (sizes_of ti)) d in Ok (acc ++ [i0 + o])) []
    = Ok (combine ti t i)).
  { clear -Hti Hlt Hli. destruct ti as [|a [|b [|? ?]]]; [done|done| |done].
    destruct t as [|t0 [|t1 [|? ?]]]; [done|done| |done].
    destruct i as [|i0 [|i1 [|? ?]]]; [done|done| |done]. cbn.
    rewrite (Nat.add_comm i0), (Nat.add_comm i1). reflexivity. }
  rewrite Hc. cbn [rbind]. rewrite flat_index_rev.
  2:{ unfold combine, strides_of. rewrite !zip_with_length, fmap_length. lia. }
  cbn [rbind]. unfold tv_at_index. rewrite tv_flat_index_Ok by (done || lia). cbn [rbind tv_base_offset view_of].
  done.
Qed.

Lemma undo_body_Ok {T} (T0 : T) org R ti : length ti = 2 -> sizes_positive ti ->
  length org = extent_prod (strides_of ti) -> make_tiled T0 2 org ti = Ok R ->
  undo_tiling_body T0 R ti
  = foldR ((fun c => (undo_place ti c.1 c.2, orig_at T0 org (place_original ti c.1 c.2))) <$> coords ti)
      (fun c R => lset R c.1 c.2) (replicate (length org) T0) /\ length R = length org.
Proof.
  intros Hti Hp Hlen HR.
  pose proof (make_tiled_ok T0 org ti Hp Hlen) as (R' & HR' & [Hl Htl] & _).
  rewrite Hti in HR'. rewrite HR in HR'. injection HR' as <-. split; [|done].
  rewrite undo_body_fold, Hl, foldR_map by done. apply foldR_ext. intros [t i] U Hc.
  apply elem_of_coords in Hc as [Ht Hi]. cbn [fst snd].
  destruct (Htl t i Ht Hi) as (x & Hx & HRx). rewrite (lget_Some _ _ _ HRx). cbn [rbind].
  unfold orig_at. by rewrite Hx.
Qed.

Lemma undo_body_equal {T} (T0 : T) org R ti : length ti = 2 -> sizes_positive ti -> sizes_divide ti ->
  (exists s, Forall (fun i => stride i = s) ti) ->
  length org = extent_prod (strides_of ti) -> make_tiled T0 2 org ti = Ok R -> undo_tiling_body T0 R ti = Ok org.
Proof.
  intros Hti Hp Hd [s Hs] Hlen HR. destruct (undo_body_Ok T0 org R ti Hti Hp Hlen HR) as [-> _].
  assert (Hrev : reverse (strides_of ti) = strides_of ti).
  { clear -Hti Hs. destruct ti as [|a [|b [|? ?]]]; [done|done| |done].
    inversion Hs as [|? ? Ha Hr]; subst. inversion Hr as [|? ? Hb _]; subst. unfold strides_of. cbn.
    unfold reverse. cbn. by rewrite Hb. }
  assert (Hpl : forall t i, undo_place ti t i = place_original ti t i).
  { intros. unfold undo_place. by rewrite Hrev. }
  set (L := (fun c => (undo_place ti c.1 c.2, orig_at T0 org (place_original ti c.1 c.2))) <$> coords ti).
  assert (HL1 : L.*1 = (fun c => place_original ti c.1 c.2) <$> coords ti).
  { unfold L. rewrite <- list_fmap_compose. apply list_fmap_ext. intros ? c _. unfold compose. cbn. apply Hpl. }
  destruct (fold_sets L (replicate (length org) T0)) as (U & HU & HlU & _ & _ & Hnd).
  { intros c Hc. unfold L in Hc. apply elem_of_list_fmap in Hc as ([t i] & -> & Hc). apply elem_of_coords in Hc as [Ht Hi].
    cbn. rewrite Hpl, replicate_length, Hlen. by apply place_original_lt. }
  rewrite HU. f_equal. rewrite replicate_length in HlU.
  assert (Hnd' := Hnd ltac:(rewrite HL1; apply original_NoDup)). clear Hnd.
  apply list_eq. intros q. destruct (decide (q < length org)) as [Hq|Hq].
  - assert (Hin : q ∈ (fun c => place_original ti c.1 c.2) <$> coords ti).
    { rewrite (places_perm ti Hp Hd). apply elem_of_seq. rewrite <- Hlen. lia. }
    apply elem_of_list_fmap in Hin as ([t i] & -> & Hc). cbn [fst snd] in *.
    rewrite (Hnd' (place_original ti t i) (orig_at T0 org (place_original ti t i))).
    + unfold orig_at. cbn [fst snd]. by destruct (lookup_lt_is_Some_2 org _ Hq) as [x ->].
    + unfold L. apply elem_of_list_fmap. exists (t, i). cbn. rewrite Hpl. done.
  - rewrite !lookup_ge_None_2 by lia. done.
Qed.

Lemma undo_body_unequal {T} (T0 : T) org R a b s0 s1 : let ti := [Tiling a s0; Tiling b s1] in
  0 < a -> 0 < b -> 2 <= s0 -> 1 <= s1 -> s0 <> s1 ->
  length org = s0 * s1 -> NoDup org -> T0 ∉ org ->
  make_tiled T0 2 org ti = Ok R -> undo_tiling_body T0 R ti <> Ok org.
Proof.
  intros ti Ha Hb Hs0 Hs1 Hne Hlen Hnd HT0 HR.
  assert (Hlen' : length org = extent_prod (strides_of ti)) by (rewrite Hlen; cbn; lia).
  destruct (undo_body_Ok T0 org R ti) as [-> _]; [done|repeat constructor; done|done|done|].
  set (L := (fun c => (undo_place ti c.1 c.2, orig_at T0 org (place_original ti c.1 c.2))) <$> coords ti).
  assert (Hor : forall L (V U : list T), foldR L (fun c R => lset R c.1 c.2) V = Ok U ->
     forall q y, U !! q = Some y -> V !! q = Some y \/ (q, y) ∈ L).
  { clear. induction L as [|[p x] L IH]; intros V U; cbn [foldR].
    - intros [= ->]. by left.
    - unfold lset at 1. cbn [fst snd]. destruct (Nat.ltb_spec p (length V)); cbn [rbind]; [|done].
      intros HU q y Hq. destruct (IH _ _ HU q y Hq) as [Hv|Hv]; [|right; set_solver].
      destruct (decide (q = p)) as [->|Hqp].
      + rewrite list_lookup_insert in Hv by done. injection Hv as <-. right. set_solver.
      + rewrite list_lookup_insert_ne in Hv by done. by left. }
  intros HU.
  assert (Hq : s1 < length org) by (rewrite Hlen; nia).
  destruct (lookup_lt_is_Some_2 org s1 Hq) as [y Hy].
  destruct (Hor _ _ _ HU s1 y Hy) as [Hv|Hin].
  - apply lookup_replicate in Hv as [-> _]. apply HT0. by eapply elem_of_list_lookup_2.
  - unfold L in Hin. apply elem_of_list_fmap in Hin as ([t i] & Hpair & Hc). injection Hpair as Hp1 Hp2.
    apply elem_of_coords in Hc as [Ht Hi]. cbn [fst snd] in Hp1, Hp2.
    destruct (lookup_lt_is_Some_2 org (place_original ti t i)) as [z Hz].
    { rewrite Hlen'. by apply place_original_lt. }
    unfold orig_at in Hp2. rewrite Hz in Hp2. subst z.
    pose proof (NoDup_lookup _ _ _ _ Hnd Hy Hz) as Hpo. unfold place_original in Hpo.
    pose proof (combine_within ti t i Ht Hi) as Hw.
    assert (Hw1 : within [1; 0] (strides_of ti)) by (repeat constructor; cbn; lia).
    assert (He : combine ti t i = [1; 0]).
    { apply (rm_inj (strides_of ti)); [exact Hw|exact Hw1|]. unfold combine. rewrite <- Hpo. cbn. lia. }
    unfold undo_place in Hp1. rewrite He in Hp1. cbn in Hp1. lia.
Qed.

(** * flat_index *)
Lemma flat_index_equal index strides s : length index = length strides -> Forall (fun w => w = s) strides ->
  flat_index index strides = Ok (row_major strides index).
Proof.
  intros Hl Hs. rewrite flat_index_rev by done. do 2 f_equal.
  assert (He : strides = replicate (length strides) s) by (symmetry; apply replicate_as_elem_of; split; [done|by apply Forall_forall]).
  rewrite He. apply reverse_replicate.
Qed.
Lemma flat_index_2 i j s0 s1 : flat_index [i; j] [s0; s1] = Ok (i * s0 + j).
Proof. rewrite flat_index_rev by done. cbn. f_equal. lia. Qed.
Lemma flat_index_collide s0 s1 : 0 < s0 -> s0 < s1 ->  2 <= s0 ->
  within [1; 0] [s0; s1] /\ within [0; s0] [s0; s1] /\ flat_index [1; 0] [s0; s1] = flat_index [0; s0] [s0; s1].
Proof.
  intros. rewrite !flat_index_2. split_and!; [repeat constructor; lia..|f_equal; lia].
Qed.
Lemma flat_index_outside s0 s1 : 0 < s1 -> s1 < s0 ->
  within [s0 - 1; s1 - 1] [s0; s1] /\ exists o, flat_index [s0 - 1; s1 - 1] [s0; s1] = Ok o /\ s0 * s1 <= o.
Proof.
  intros. rewrite flat_index_2. split; [repeat constructor; lia|]. eexists. split; [done|].
  assert (exists a, s0 = S a) as [a ->] by (exists (s0 - 1); lia).
  assert (S a * s1 <= S a * a) by (apply Nat.mul_le_mono_l; lia). nia.
Qed.

(** * make_tiled on wrong arguments *)
Lemma tile_dim_zero {T} dim (org : list T) a post : tile_size_dir a = 0 -> forall pre don p R,
  Forall (fun i => 0 < tile_size_dir i <= stride i) pre ->
  tile_dim dim (length (pre ++ a :: post)) (length don) org (don ++ pre ++ a :: post) p R = Fail EDivZero.
Proof.
  intros Ha pre. induction pre as [|b pre IH]; intros don p R Hf; cbn [app length tile_dim].
  - rewrite lget_app by done. cbn [rbind]. unfold tiles_of. rewrite Ha. done.
  - inversion Hf as [|? ? Hb Hf']; subst. rewrite lget_app by done. cbn [rbind].
    rewrite tiles_of_Ok by lia. cbn [rbind].
    assert (Hc : 0 < stride b / tile_size_dir b) by (apply Nat.div_str_pos; lia).
    destruct (stride b / tile_size_dir b) as [|c]; [lia|]. cbn [seq foldR].
    specialize (IH (don ++ [b]) (p ++ [0]) R Hf'). rewrite (app_length don [b]), <- app_assoc in IH. cbn [app] in IH.
    replace (length don + length [b]) with (S (length don)) in IH by (cbn [length]; lia). rewrite IH. done.
Qed.
Lemma make_tiled_zero {T} (T0 : T) org pre a post : tile_size_dir a = 0 ->
  Forall (fun i => 0 < tile_size_dir i <= stride i) pre ->
  make_tiled T0 (length (pre ++ a :: post)) org (pre ++ a :: post) = Fail EDivZero.
Proof.
  intros Ha Hf. unfold make_tiled. rewrite Nat.eqb_refl. cbn [negb].
  exact (tile_dim_zero _ _ _ _ Ha pre [] _ _ Hf).
Qed.

Lemma make_tiled_short {T} (T0 : T) org ti : sizes_positive ti -> sizes_divide ti ->
  length org < extent_prod (strides_of ti) -> make_tiled T0 (length ti) org ti = Fail EOob.
Proof.
  intros Hp Hd Hlt. rewrite make_tiled_fold by done.
  assert (Hstep : forall L R, (exists c, c ∈ L /\ length org <= place_original ti c.1 c.2) ->
     foldR L (copy_step ti org) R = Fail EOob).
  { clear. induction L as [|c L IH]; intros R (c' & Hin & Hle); [by apply elem_of_nil in Hin|].
    cbn [foldR]. unfold copy_step at 1, lget. destruct (org !! place_original ti c.1 c.2) as [x|] eqn:E; cbn [rbind]; [|done].
    apply elem_of_cons in Hin as [->|Hin]; [apply lookup_lt_Some in E; lia|].
    unfold lset. destruct (_ <? _); cbn [rbind]; [|done]. apply IH. eauto. }
  apply Hstep.
  assert (Hin : length org ∈ (fun c => place_original ti c.1 c.2) <$> coords ti).
  { rewrite (places_perm ti Hp Hd). apply elem_of_seq. lia. }
  apply elem_of_list_fmap in Hin as (c & He & Hc). exists c. split; [done|]. cbn in He. rewrite He. done.
Qed.

Lemma places_distinct ti t i t' i' :
  within t (counts_of ti) -> within i (sizes_of ti) -> within t' (counts_of ti) -> within i' (sizes_of ti) ->
  place_original ti t i = place_original ti t' i' \/ place_tiled ti t i = place_tiled ti t' i' -> t = t' /\ i = i'.
Proof.
  intros H1 H2 H3 H4 [He|He]; [by apply (place_original_inj ti)|].
  pose proof (place_tiled_at ti t i H1 H2) as Ha. rewrite He, place_tiled_at in Ha by done. by injection Ha.
Qed.
Lemma entries_lost {T} ti (org : list T) : sizes_positive ti -> length org = extent_prod (strides_of ti) ->
  ~ sizes_divide ti -> 0 < length org -> tiled_entries ti < length org.
Proof.
  intros Hp -> Hd. unfold sizes_positive, sizes_divide, tiled_entries, counts_of, sizes_of, strides_of in *.
  induction ti as [|a ti IH]; [intros; exfalso; apply Hd; constructor|].
  inversion Hp as [|? ? Ha Hp']; subst. cbn. intros Hpos.
  pose proof (Nat.div_mod (stride a) (tile_size_dir a) ltac:(lia)) as Hdm.
  pose proof (counts_sizes_le ti) as Hle. unfold tiled_entries, counts_of, sizes_of, strides_of in Hle.
  set (c := stride a / tile_size_dir a) in *. set (s := extent_prod (stride <$> ti)) in *.
  set (C := extent_prod ((fun i => stride i / tile_size_dir i) <$> ti)) in *. set (z := extent_prod (tile_size_dir <$> ti)) in *.
  assert (Hs : 0 < s) by lia. assert (Hsa : 0 < stride a) by lia.
  assert (He : c * C * (tile_size_dir a * z) = (c * tile_size_dir a) * (C * z)) by lia. rewrite He.
  assert (Hca : c * tile_size_dir a <= stride a) by lia.
  destruct (decide (stride a mod tile_size_dir a = 0)) as [Hm|Hm].
  - assert (~ Forall (fun i => (tile_size_dir i | stride i)) ti) as Hnd.
    { intros Hf. apply Hd. constructor; [|exact Hf]. exists c. lia. }
    specialize (IH Hp' Hnd Hs). apply Nat.le_lt_trans with (stride a * (C * z)); [by apply Nat.mul_le_mono_r|].
    apply Nat.mul_lt_mono_pos_l; lia.
  - apply Nat.le_lt_trans with (c * tile_size_dir a * s); [by apply Nat.mul_le_mono_l|].
    apply Nat.mul_lt_mono_pos_r; lia.
Qed.
Lemma flat_index_different s0 s1 : 2 <= s0 -> 1 <= s1 -> s0 <> s1 ->
  (exists idx idx' o, within idx [s0; s1] /\ within idx' [s0; s1] /\ idx <> idx' /\
     flat_index idx [s0; s1] = Ok o /\ flat_index idx' [s0; s1] = Ok o) \/
  (exists idx o, within idx [s0; s1] /\ flat_index idx [s0; s1] = Ok o /\ s0 * s1 <= o).
Proof.
  intros H0 H1 Hne. destruct (decide (s0 < s1)) as [Hlt|Hge].
  - left. destruct (flat_index_collide s0 s1) as (Ha & Hb & He); [lia..|].
    exists [1; 0], [0; s0], (1 * s0 + 0). split_and!; [exact Ha|exact Hb|done|apply flat_index_2|].
    rewrite <- He. apply flat_index_2.
  - right. destruct (flat_index_outside s0 s1) as (Ha & o & Ho & Hle); [lia..|]. by exists [s0 - 1; s1 - 1], o.
Qed.
