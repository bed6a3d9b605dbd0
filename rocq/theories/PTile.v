(** Lemmas about the models of src/memory_layout. *)
From Verif Require Import Base LoopFacts MIter PIter MTile SpecTile.

Lemma lget_Some {A} (l : list A) i x : l !! i = Some x -> lget l i = Ok x.
Proof. unfold lget. by intros ->. Qed.
Lemma lget_total {A} `{Inhabited A} (l : list A) i : i < length l -> lget l i = Ok (l !!! i).
Proof. intros Hi. apply lget_Some. by apply list_lookup_lookup_total_lt. Qed.

Lemma foldR_ext {S X} (l : list X) (f g : X -> S -> res S) s :
  (forall x s, x ∈ l -> f x s = g x s) -> foldR l f s = foldR l g s.
Proof.
  revert s. induction l as [|x l IH]; intros s He; [done|]. cbn [foldR].
  rewrite He by set_solver. destruct (g x s) as [s'|e]; cbn [rbind]; [|done].
  apply IH. intros y s0 Hy. apply He. set_solver.
Qed.
Lemma foldR_map {S X Y} (h : Y -> X) (l : list Y) (f : X -> S -> res S) s :
  foldR (h <$> l) f s = foldR l (fun y => f (h y)) s.
Proof. revert s. induction l as [|x l IH]; intros s; [done|]. cbn. destruct (f (h x) s); cbn; [apply IH|done]. Qed.
Lemma foldR_concat {S X Y} (h : Y -> list X) (l : list Y) (f : X -> S -> res S) s :
  foldR (l ≫= h) f s = foldR l (fun y s => foldR (h y) f s) s.
Proof.
  revert s. induction l as [|y l IH]; intros s; [done|].
  rewrite bind_cons, foldR_app. cbn [foldR]. destruct (foldR (h y) f s); cbn [rbind]; [apply IH|done].
Qed.

(** * Enumeration of the indices of an array *)
Fixpoint lexs (ws : list nat) : list (list nat) :=
  match ws with [] => [[]] | w :: ws => seq 0 w ≫= (fun i => cons i <$> lexs ws) end.

Lemma elem_of_lexs ws idx : idx ∈ lexs ws <-> within idx ws.
Proof.
  unfold within. revert idx. induction ws as [|w ws IH]; intros idx; cbn [lexs].
  - rewrite elem_of_list_singleton. split; [intros ->; constructor|]. by inversion 1.
  - rewrite elem_of_list_bind. split.
    + intros (i & Hi & Hs). apply elem_of_list_fmap in Hi as (idx' & -> & Hi). apply elem_of_seq in Hs.
      constructor; [lia|]. by apply IH.
    + intros Hf. inversion Hf as [|i w' idx' ws' Hlt Hrest]; subst. exists i. split.
      * apply elem_of_list_fmap. exists idx'. split; [done|]. by apply IH.
      * apply elem_of_seq. lia.
Qed.

Lemma fmap_add_seq c n k : (fun x => c + x) <$> seq k n = seq (c + k) n.
Proof. revert k. induction n as [|n IH]; intros k; [done|]. cbn. rewrite IH. f_equal. f_equal. lia. Qed.
Lemma bind_blocks_seq n k : forall lo, (seq lo n ≫= fun i => (fun x => i * k + x) <$> seq 0 k) = seq (lo * k) (n * k).
Proof.
  induction n as [|n IH]; intros lo; [done|]. cbn [seq]. rewrite bind_cons, IH, fmap_add_seq.
  replace (S n * k) with (k + n * k) by lia. rewrite seq_app. f_equal; f_equal; lia.
Qed.

Lemma fmap_of_bind {A B C} (g : B -> C) (h : A -> list B) l : g <$> (l ≫= h) = l ≫= fun x => g <$> h x.
Proof. induction l as [|x l IH]; [done|]. by rewrite !bind_cons, fmap_app, IH. Qed.

Lemma rm_lexs ws : row_major ws <$> lexs ws = seq 0 (extent_prod ws).
Proof.
  induction ws as [|w ws IH]; [done|]. cbn [lexs extent_prod].
  rewrite fmap_of_bind.
  etransitivity; [|exact (bind_blocks_seq w (extent_prod ws) 0)]. apply list_bind_ext; [|done].
  intros i. rewrite <- list_fmap_compose, <- IH, <- list_fmap_compose. done.
Qed.
Lemma lexs_length ws : length (lexs ws) = extent_prod ws.
Proof. rewrite <- (fmap_length (row_major ws)), rm_lexs. apply seq_length. Qed.
Lemma rm_lt ws idx : within idx ws -> row_major ws idx < extent_prod ws.
Proof.
  intros Hw. apply elem_of_lexs in Hw. assert (Hs : row_major ws idx ∈ row_major ws <$> lexs ws).
  { apply elem_of_list_fmap. by exists idx. }
  rewrite rm_lexs in Hs. apply elem_of_seq in Hs. lia.
Qed.
Lemma lexs_at ws idx : within idx ws -> lexs ws !! row_major ws idx = Some idx.
Proof.
  unfold within. induction 1 as [|i w idx ws Hlt Hr IH]; [done|]. cbn [lexs row_major].
  pose proof (rm_lt ws idx Hr) as Hb. revert Hlt.
  assert (Hg : forall n lo, lo <= i < lo + n ->
    (seq lo n ≫= fun i => cons i <$> lexs ws) !! ((i - lo) * extent_prod ws + row_major ws idx) = Some (i :: idx)).
  { induction n as [|n IHn]; intros lo Hlo; [lia|]. cbn [seq]. rewrite bind_cons.
    destruct (decide (i = lo)) as [->|Hne].
    - rewrite Nat.sub_diag. rewrite lookup_app_l by (rewrite fmap_length, lexs_length; lia).
      change (0 * extent_prod ws + row_major ws idx) with (row_major ws idx).
      rewrite list_lookup_fmap, IH. done.
    - assert (He : (i - lo) * extent_prod ws = extent_prod ws + (i - S lo) * extent_prod ws)
        by (replace (i - lo) with (S (i - S lo)) by lia; reflexivity).
      pose proof (Nat.le_0_l ((i - S lo) * extent_prod ws)) as Hz.
      rewrite lookup_app_r; rewrite fmap_length, lexs_length; [|lia].
      rewrite <- (IHn (S lo)) by lia. f_equal. lia. }
  intros Hlt. specialize (Hg w 0 ltac:(lia)). rewrite Nat.sub_0_r in Hg. exact Hg.
Qed.
Lemma rm_inj ws idx idx' : within idx ws -> within idx' ws -> row_major ws idx = row_major ws idx' -> idx = idx'.
Proof. intros H1 H2 He. apply lexs_at in H1, H2. rewrite He, H2 in H1. by injection H1. Qed.
Lemma lexs_NoDup ws : NoDup (lexs ws).
Proof. apply (NoDup_fmap_1 (row_major ws)). rewrite rm_lexs. apply NoDup_seq. Qed.
Lemma rm_surj ws k : k < extent_prod ws -> exists idx, within idx ws /\ row_major ws idx = k.
Proof.
  intros Hk. assert (He : k ∈ row_major ws <$> lexs ws) by (rewrite rm_lexs; apply elem_of_seq; lia).
  apply elem_of_list_fmap in He as (idx & -> & Hi). exists idx. split; [|done]. by apply elem_of_lexs.
Qed.
Lemma within_length idx ws : within idx ws -> length idx = length ws.
Proof. apply Forall2_length. Qed.
Lemma within_lookup idx ws d i w : within idx ws -> idx !! d = Some i -> ws !! d = Some w -> i < w.
Proof. intros Hw Hi Hws. exact (Forall2_lookup_lr _ _ _ _ _ _ Hw Hi Hws). Qed.

(** * The loops *)
Lemma rev_fold vs ws k : length vs = length ws -> k <= length ws ->
  forall (v w : nat -> res nat),
  (forall d, d < length ws -> v d = Ok (vs !!! d)) -> (forall d, d < length ws -> w d = Ok (ws !!! d)) ->
  foldR (seq 0 k) (fun d (s : nat * nat) =>
    let? i := v ((length ws - 1) - d) in
    let? n := w ((length ws - 1) - d) in
    Ok (s.1 + i * s.2, s.2 * n)) (0, 1)
  = Ok (row_major (drop (length ws - k) ws) (drop (length ws - k) vs), extent_prod (drop (length ws - k) ws)).
Proof.
  intros Hl Hk v w Hv Hw. induction k as [|k IH].
  - cbn [seq foldR]. rewrite Nat.sub_0_r, drop_all, <- Hl, drop_all. done.
  - rewrite seq_S, foldR_app, IH by lia. cbn [rbind Nat.add foldR].
    rewrite Hv, Hw by lia. cbn [rbind fst snd].
    assert (Hj : length ws - k = S (length ws - S k)) by lia.
    assert (Hd : length ws - 1 - k = length ws - S k) by lia. rewrite Hd.
    rewrite (drop_S ws (ws !!! (length ws - S k)) (length ws - S k)) by (apply list_lookup_lookup_total_lt; lia).
    rewrite (drop_S vs (vs !!! (length ws - S k)) (length ws - S k)) by (apply list_lookup_lookup_total_lt; lia).
    rewrite <- Hj. cbn [row_major extent_prod]. f_equal. f_equal; lia.
Qed.
Lemma rev_offset_Ok dim vs ws v w : length vs = dim -> length ws = dim ->
  (forall d, d < dim -> v d = Ok (vs !!! d)) -> (forall d, d < dim -> w d = Ok (ws !!! d)) ->
  rev_offset dim v w = Ok (row_major ws vs).
Proof.
  intros Hv <- Hev Hew. unfold rev_offset. rewrite (rev_fold vs ws (length ws)) by (try done; lia).
  rewrite Nat.sub_diag, !drop_0. done.
Qed.

Lemma forR_1 {S} hi (f : nat -> S -> res S) s : forR 0 hi 1 f s = foldR (seq 0 hi) f s.
Proof. unfold forR. rewrite andb_false_r, rng_1, Nat.sub_0_r. done. Qed.

Lemma nest_looped_lexs {S} ws (f : list nat -> S -> res S) : forall pre p s k,
  k = length pre + length ws ->
  nest_looped (length ws) (length pre) (replicate k 0) (pre ++ ws) (replicate k 1) f p s
  = foldR (lexs ws) (fun i s => f (p ++ i) s) s.
Proof.
  induction ws as [|w ws IH]; intros pre p s k Hk; cbn [nest_looped lexs length].
  - cbn [foldR]. rewrite app_nil_r. destruct (f p s); done.
  - simpl in Hk. rewrite (lget_Some _ _ 0) by (apply lookup_replicate; split; [done|lia]).
    rewrite (lget_Some (pre ++ w :: ws) _ w) by (by rewrite list_lookup_middle).
    rewrite (lget_Some _ _ 1) by (apply lookup_replicate; split; [done|lia]). cbn [rbind].
    rewrite forR_1, foldR_concat. apply foldR_ext. intros i s' _.
    specialize (IH (pre ++ [w]) (p ++ [i]) s' k).
    rewrite app_length, <- app_assoc in IH. cbn [length app] in IH.
    replace (length pre + 1) with (Datatypes.S (length pre)) in IH by lia.
    rewrite IH by lia. rewrite foldR_map. apply foldR_ext. intros x s0 _. by rewrite <- app_assoc.
Qed.
Lemma ml_loop_nest_lexs {S} ws (f : list nat -> S -> res S) s :
  ml_loop_nest (length ws) (replicate (length ws) 0) ws (replicate (length ws) 1) f s = foldR (lexs ws) f s.
Proof. exact (nest_looped_lexs ws f [] [] s (length ws) eq_refl). Qed.

(** Collecting one value per dimension *)
Lemma collect_app {A B} (l : list A) (g : nat -> res B) (h : A -> B) :
  (forall d a, l !! d = Some a -> g d = Ok (h a)) ->
  foldR (seq 0 (length l)) (fun d acc => let? x := g d in Ok (acc ++ [x])) [] = Ok (h <$> l).
Proof.
  intros Hg.
  assert (Hk : forall k, k <= length l ->
    foldR (seq 0 k) (fun d acc => let? x := g d in Ok (acc ++ [x])) [] = Ok (h <$> take k l)).
  { induction k as [|k IH]; intros Hk; [done|]. rewrite seq_S, foldR_app, IH by lia. cbn [rbind foldR Nat.add].
    destruct (lookup_lt_is_Some_2 l k Hk) as [a Ha]. rewrite (Hg k a Ha). cbn [rbind].
    rewrite (take_S_r l k a Ha), fmap_app. done. }
  rewrite Hk by done. by rewrite firstn_all.
Qed.
Lemma rbind_assoc {A B C} (r : res A) (f : A -> res B) (g : B -> res C) :
  rbind (rbind r f) g = rbind r (fun a => rbind (f a) g).
Proof. by destruct r. Qed.

Lemma tile_max_Ok ti : tile_max (length ti) ti = Ok (sizes_of ti).
Proof.
  unfold tile_max, sizes_of. rewrite <- (collect_app ti (fun d => let? i := lget ti d in Ok (tile_size_dir i)) tile_size_dir).
  - apply foldR_ext. intros d s _. rewrite rbind_assoc. done.
  - intros d a Ha. rewrite (lget_Some _ _ _ Ha). done.
Qed.
Lemma sizes_prod (ti : list tiling_info_dim) n dim : dim = length ti ->
  foldR (seq 0 dim) (fun d sk => let? i := lget ti d in Ok (sk * tile_size_dir i)) n = Ok (n * extent_prod (sizes_of ti)).
Proof.
  intros ->.
  assert (Hk : forall k, k <= length ti -> foldR (seq 0 k) (fun d sk => let? i := lget ti d in Ok (sk * tile_size_dir i)) n
     = Ok (n * extent_prod (sizes_of (take k ti)))).
  { induction k as [|k IH]; intros Hk; [exact (f_equal Ok (eq_sym (Nat.mul_1_r n)))|]. rewrite seq_S, foldR_app, IH by lia. cbn [rbind foldR Nat.add].
    destruct (lookup_lt_is_Some_2 ti k Hk) as [a Ha]. rewrite (lget_Some _ _ _ Ha). cbn [rbind].
    rewrite (take_S_r ti k a Ha). f_equal. unfold sizes_of. rewrite fmap_app. cbn [fmap list_fmap].
    generalize (tile_size_dir <$> take k ti). intros l.
    assert (Ha' : forall l, extent_prod (l ++ [tile_size_dir a]) = extent_prod l * tile_size_dir a).
    { clear. induction l as [|w l IH]; cbn [extent_prod app]; [lia|]. rewrite IH. lia. }
    rewrite Ha'. lia. }
  rewrite Hk by done. by rewrite firstn_all.
Qed.
Lemma tiles_of_Ok i : 0 < tile_size_dir i -> tiles_of i = Ok (stride i / tile_size_dir i).
Proof. intros H. unfold tiles_of. destruct (Nat.eqb_spec (tile_size_dir i) 0); [lia|done]. Qed.

#[local] Instance tid_inhabited : Inhabited tiling_info_dim := populate (Tiling 0 0).

Lemma lookup_total_fmap_ti {B} `{Inhabited B} (g : tiling_info_dim -> B) (ti : list tiling_info_dim) d :
  d < length ti -> (g <$> ti) !!! d = g (ti !!! d).
Proof. intros Hd. by apply list_lookup_total_fmap. Qed.
Lemma sizes_at ti d : sizes_positive ti -> d < length ti -> 0 < tile_size_dir (ti !!! d).
Proof. intros Hp Hd. exact (Forall_lookup_1 _ _ _ _ Hp (list_lookup_lookup_total_lt _ _ Hd)). Qed.

Lemma counts_rev ti t : sizes_positive ti -> length t = length ti ->
  rev_offset (length ti) (lget t) (fun d => let? i := lget ti d in tiles_of i) = Ok (row_major (counts_of ti) t).
Proof.
  intros Hp Hl. apply rev_offset_Ok; [done|unfold counts_of; by rewrite fmap_length| |].
  - intros d Hd. apply lget_total. lia.
  - intros d Hd. rewrite lget_total by done. cbn [rbind]. unfold counts_of. rewrite lookup_total_fmap_ti by done.
    apply tiles_of_Ok. by apply sizes_at.
Qed.
Lemma sizes_rev ti (i : list nat) : length i = length ti ->
  rev_offset (length ti) (lget i) (fun d => let? i := lget ti d in Ok (tile_size_dir i)) = Ok (row_major (sizes_of ti) i).
Proof.
  intros Hl. apply rev_offset_Ok; [done|unfold sizes_of; by rewrite fmap_length| |].
  - intros d Hd. apply lget_total. lia.
  - intros d Hd. rewrite lget_total by done. cbn [rbind]. unfold sizes_of. by rewrite lookup_total_fmap_ti.
Qed.
Lemma original_rev ti (t i : list nat) : length t = length ti -> length i = length ti ->
  rev_offset (length ti) (fun d =>
          let? t := lget t d in
          let? inf := lget ti d in
          let? n := lget i d in
          Ok (t * tile_size_dir inf + n)) (fun d => let? i := lget ti d in Ok (stride i)) = Ok (place_original ti t i).
Proof.
  intros Ht Hl. unfold place_original. apply rev_offset_Ok.
  - rewrite !zip_with_length. unfold sizes_of. rewrite fmap_length. lia.
  - unfold strides_of. by rewrite fmap_length.
  - intros d Hd. rewrite !lget_total by lia. cbn [rbind]. f_equal. symmetry. apply list_lookup_total_correct.
    apply lookup_zip_with_Some. eexists _, _. split_and!; [reflexivity| |apply list_lookup_lookup_total_lt; lia].
    apply lookup_zip_with_Some. eexists _, _. split_and!; [reflexivity|apply list_lookup_lookup_total_lt; lia|].
    unfold sizes_of. rewrite list_lookup_fmap. rewrite (list_lookup_lookup_total_lt ti d) by done. done.
  - intros d Hd. rewrite lget_total by done. cbn [rbind]. unfold strides_of. by rewrite lookup_total_fmap_ti.
Qed.

(** Original places of two tile/in-tile coordinate pairs *)
Lemma within_counts_length ti t : within t (counts_of ti) -> length t = length ti.
Proof. intros H. apply within_length in H. unfold counts_of in H. by rewrite fmap_length in H. Qed.
Lemma within_sizes_length ti t : within t (sizes_of ti) -> length t = length ti.
Proof. intros H. apply within_length in H. unfold sizes_of in H. by rewrite fmap_length in H. Qed.
Lemma combine_within ti t i : within t (counts_of ti) -> within i (sizes_of ti) ->
  within (zip_with Nat.add (zip_with Nat.mul t (sizes_of ti)) i) (strides_of ti).
Proof.
  unfold within, counts_of, sizes_of, strides_of. revert t i. induction ti as [|a ti IH]; intros t i Ht Hi.
  - inversion Ht; inversion Hi; subst. constructor.
  - cbn in Ht, Hi. inversion Ht as [|c ? t' ? Hc Ht']; subst. inversion Hi as [|x ? i' ? Hx Hi']; subst.
    cbn. constructor; [|by apply IH].
    assert (0 < tile_size_dir a) by lia.
    pose proof (Nat.div_mod (stride a) (tile_size_dir a)).
    assert (S c * tile_size_dir a <= stride a / tile_size_dir a * tile_size_dir a) by (apply Nat.mul_le_mono_r; lia).
    lia.
Qed.
Lemma combine_inj ti t i t' i' : within t (counts_of ti) -> within i (sizes_of ti) ->
  within t' (counts_of ti) -> within i' (sizes_of ti) ->
  zip_with Nat.add (zip_with Nat.mul t (sizes_of ti)) i = zip_with Nat.add (zip_with Nat.mul t' (sizes_of ti)) i' ->
  t = t' /\ i = i'.
Proof.
  unfold within, counts_of, sizes_of. revert t i t' i'. induction ti as [|a ti IH]; intros t i t' i' Ht Hi Ht' Hi'.
  - inversion Ht; inversion Hi; inversion Ht'; inversion Hi'; subst. done.
  - cbn in Ht, Hi, Ht', Hi'.
    inversion Ht as [|c ? t1 ? Hc Ht1]; subst. inversion Hi as [|x ? i1 ? Hx Hi1]; subst.
    inversion Ht' as [|c' ? t1' ? Hc' Ht1']; subst. inversion Hi' as [|x' ? i1' ? Hx' Hi1']; subst.
    cbn. intros [= He Hr]. destruct (IH _ _ _ _ Ht1 Hi1 Ht1' Hi1' Hr) as [-> ->].
    assert (c = c').
    { rewrite (Nat.div_unique (c * tile_size_dir a + x) (tile_size_dir a) c x) by lia.
      rewrite (Nat.div_unique (c' * tile_size_dir a + x') (tile_size_dir a) c' x') by lia. by rewrite He. }
    subst c'. assert (x = x') by lia. by subst x'.
Qed.
Lemma place_original_inj ti t i t' i' : within t (counts_of ti) -> within i (sizes_of ti) ->
  within t' (counts_of ti) -> within i' (sizes_of ti) ->
  place_original ti t i = place_original ti t' i' -> t = t' /\ i = i'.
Proof.
  intros. apply (combine_inj ti); [assumption..|]. apply (rm_inj (strides_of ti)); [by apply combine_within..|assumption].
Qed.
Lemma place_original_lt ti t i : within t (counts_of ti) -> within i (sizes_of ti) ->
  place_original ti t i < extent_prod (strides_of ti).
Proof. intros. apply rm_lt. by apply combine_within. Qed.

(** * make_tiled *)
Section MakeTiled.
  Context {T : Type}.
  Implicit Types org R : list T.

  Definition coords (ti : list tiling_info_dim) : list (list nat * list nat) :=
    lexs (counts_of ti) ≫= fun t => pair t <$> lexs (sizes_of ti).
  Lemma elem_of_coords ti t i : (t, i) ∈ coords ti <-> within t (counts_of ti) /\ within i (sizes_of ti).
  Proof.
    unfold coords. rewrite elem_of_list_bind. split.
    - intros (t' & Hi & Ht). apply elem_of_list_fmap in Hi as (i' & [= <- <-] & Hi).
      split; by apply elem_of_lexs.
    - intros [Ht Hi]. exists t. split; [|by apply elem_of_lexs]. apply elem_of_list_fmap. exists i.
      split; [done|by apply elem_of_lexs].
  Qed.
  Lemma coords_places ti : (fun c => place_tiled ti c.1 c.2) <$> coords ti = seq 0 (tiled_entries ti).
  Proof.
    unfold coords, tiled_entries. rewrite fmap_of_bind.
    transitivity (lexs (counts_of ti) ≫= fun t =>
       (fun x => row_major (counts_of ti) t * extent_prod (sizes_of ti) + x) <$> seq 0 (extent_prod (sizes_of ti))).
    { apply list_bind_ext; [|done]. intros t.
      rewrite <- list_fmap_compose, <- rm_lexs, <- list_fmap_compose. done. }
    etransitivity; [|exact (bind_blocks_seq (extent_prod (counts_of ti)) (extent_prod (sizes_of ti)) 0)]. rewrite <- (rm_lexs (counts_of ti)).
    clear. induction (lexs (counts_of ti)) as [|t l IH]; [done|]. rewrite fmap_cons, !bind_cons, IH. done.
  Qed.
  Lemma coords_length ti : length (coords ti) = tiled_entries ti.
  Proof. rewrite <- (fmap_length (fun c => place_tiled ti c.1 c.2)), coords_places. apply seq_length. Qed.

  Lemma tile_dim_lexs dim org ti : sizes_positive ti -> forall n pre p R,
    n + length pre = length ti -> take (length pre) ti = pre ->
    tile_dim dim n (length pre) org ti p R
    = foldR (lexs (counts_of (drop (length pre) ti))) (fun t R => tile_dim_indices dim org ti (p ++ t) R) R.
  Proof.
    intros Hp n. induction n as [|n IH]; intros pre p R Hn Hpre; cbn [tile_dim].
    - rewrite drop_ge by lia. cbn. rewrite app_nil_r. by destruct (tile_dim_indices _ _ _ _ _).
    - destruct (lookup_lt_is_Some_2 ti (length pre)) as [a Ha]; [lia|].
      rewrite (lget_Some _ _ _ Ha). cbn [rbind].
      rewrite tiles_of_Ok by exact (Forall_lookup_1 _ _ _ _ Hp Ha). cbn [rbind].
      rewrite (drop_S _ _ _ Ha). cbn [counts_of fmap list_fmap lexs]. rewrite foldR_concat.
      apply foldR_ext. intros x R' _.
      pose proof (IH (pre ++ [a]) (p ++ [x]) R') as IH'. rewrite app_length in IH'. cbn [length] in IH'.
      replace (length pre + 1) with (S (length pre)) in IH' by lia. rewrite IH'; [|lia|].
      + rewrite foldR_map. apply foldR_ext. intros. by rewrite <- app_assoc.
      + rewrite (take_S_r _ _ _ Ha). by rewrite Hpre.
  Qed.

  Definition copy_step (ti : list tiling_info_dim) org (c : list nat * list nat) R : res (list T) :=
    let? x := lget org (place_original ti c.1 c.2) in lset R (place_tiled ti c.1 c.2) x.

  Lemma tile_dim_indices_lexs org ti t R : sizes_positive ti -> length t = length ti ->
    tile_dim_indices (length ti) org ti t R = foldR (lexs (sizes_of ti)) (fun i => copy_step ti org (t, i)) R.
  Proof.
    intros Hp Ht. unfold tile_dim_indices. rewrite counts_rev by done. cbn [rbind].
    rewrite sizes_prod by done. cbn [rbind]. rewrite tile_max_Ok. cbn [rbind].
    assert (Hl : length (sizes_of ti) = length ti) by (unfold sizes_of; by rewrite fmap_length).
    rewrite <- Hl at 1 2 3. rewrite ml_loop_nest_lexs. apply foldR_ext. intros i R' Hi.
    apply elem_of_lexs in Hi. apply within_sizes_length in Hi.
    rewrite sizes_rev by done. cbn [rbind]. rewrite original_rev by done. reflexivity.
  Qed.

  Lemma make_tiled_fold T0 org ti : sizes_positive ti ->
    make_tiled T0 (length ti) org ti = foldR (coords ti) (copy_step ti org) (replicate (length org) T0).
  Proof.
    intros Hp. unfold make_tiled. rewrite Nat.eqb_refl. cbn [negb].
    rewrite (tile_dim_lexs _ _ _ Hp _ []) by (cbn; lia || done). cbn [length]. rewrite drop_0.
    unfold coords. rewrite foldR_concat. apply foldR_ext. intros t R Ht.
    apply elem_of_lexs in Ht. apply within_counts_length in Ht. cbn [app].
    rewrite tile_dim_indices_lexs, foldR_map by done. done.
  Qed.

  (** Setting positions 0, 1, 2, ... in order *)
  Lemma fold_sets_seq (l : list T) : forall R k, k + length l <= length R ->
    foldR (imap (fun j x => (k + j, x)) l) (fun c R => lset R c.1 c.2) R = Ok (take k R ++ l ++ drop (k + length l) R).
  Proof.
    induction l as [|x l IH]; intros R k Hk.
    - cbn. rewrite Nat.add_0_r, take_drop. done.
    - cbn [imap foldR]. cbn [length] in Hk. rewrite Nat.add_0_r. unfold lset at 1. cbn [fst snd].
      destruct (Nat.ltb_spec k (length R)); [|lia]. cbn [rbind].
      assert (He : imap ((fun j x => (k + j, x)) ∘ S) l = imap (fun j x => (S k + j, x)) l).
      { apply imap_ext. intros. unfold compose. f_equal. lia. }
      rewrite He, IH by (rewrite insert_length; lia).
      f_equal. rewrite (take_S_r _ _ x) by (apply list_lookup_insert; lia).
      rewrite take_insert by lia. rewrite <- app_assoc. cbn [app length]. do 3 f_equal.
      rewrite drop_insert_gt by lia. f_equal. lia.
  Qed.
  Lemma imap_seq_zip {A} (h : A -> nat) (v : A -> T) (L : list A) k :
    h <$> L = seq k (length L) -> (fun c => (h c, v c)) <$> L = imap (fun j x => (k + j, x)) (v <$> L).
  Proof.
    revert k. induction L as [|c L IH]; intros k He; [done|]. cbn in *. injection He as Hc HL.
    rewrite Nat.add_0_r, Hc. f_equal. rewrite (IH (S k)) by done. apply imap_ext. intros. unfold compose. f_equal. lia.
  Qed.

  Definition orig_at (T0 : T) org (n : nat) : T := match org !! n with Some x => x | None => T0 end.
  Definition tiled_values (T0 : T) ti org : list T := (fun c => orig_at T0 org (place_original ti c.1 c.2)) <$> coords ti.

  Lemma counts_sizes_le ti : tiled_entries ti <= extent_prod (strides_of ti).
  Proof.
    unfold tiled_entries, counts_of, sizes_of, strides_of. induction ti as [|a ti IH]; [done|]. cbn.
    assert (Hle : stride a / tile_size_dir a * tile_size_dir a <= stride a).
    { destruct (decide (tile_size_dir a = 0)) as [->|]; [lia|]. pose proof (Nat.div_mod (stride a) (tile_size_dir a)). lia. }
    pose proof (Nat.mul_le_mono _ _ _ _ Hle IH). lia.
  Qed.

  Lemma make_tiled_values_ge T0 org ti : sizes_positive ti -> extent_prod (strides_of ti) <= length org ->
    make_tiled T0 (length ti) org ti
    = Ok (tiled_values T0 ti org ++ replicate (length org - tiled_entries ti) T0).
  Proof.
    intros Hp Hlen. rewrite make_tiled_fold by done.
    transitivity (foldR ((fun c => (place_tiled ti c.1 c.2, orig_at T0 org (place_original ti c.1 c.2))) <$> coords ti)
       (fun c R => lset R c.1 c.2) (replicate (length org) T0)).
    - rewrite foldR_map. apply foldR_ext. intros [t i] R Hc. apply elem_of_coords in Hc as [Ht Hi]. cbn [fst snd].
      unfold copy_step. cbn [fst snd]. unfold orig_at.
      destruct (lookup_lt_is_Some_2 org (place_original ti t i)) as [x Hx].
      { eapply Nat.lt_le_trans; [by apply place_original_lt|exact Hlen]. }
      rewrite (lget_Some _ _ _ Hx), Hx. done.
    - rewrite (imap_seq_zip (fun c => place_tiled ti c.1 c.2) _ (coords ti) 0)
        by (rewrite coords_places, coords_length; done).
      fold (tiled_values T0 ti org).
      assert (Hv : length (tiled_values T0 ti org) = tiled_entries ti) by (unfold tiled_values; by rewrite fmap_length, coords_length).
      rewrite fold_sets_seq.
      + cbn [take app Nat.add]. rewrite drop_replicate, Hv. done.
      + rewrite replicate_length, Hv. cbn. etransitivity; [apply counts_sizes_le|exact Hlen].
  Qed.

  Lemma make_tiled_values T0 org ti : sizes_positive ti -> length org = extent_prod (strides_of ti) ->
    make_tiled T0 (length ti) org ti
    = Ok (tiled_values T0 ti org ++ replicate (length org - tiled_entries ti) T0).
  Proof. intros Hp Hlen. apply make_tiled_values_ge; [exact Hp|by rewrite Hlen]. Qed.

  Lemma place_tiled_at ti t i : within t (counts_of ti) -> within i (sizes_of ti) ->
    coords ti !! place_tiled ti t i = Some (t, i).
  Proof.
    intros Ht Hi.
    assert (Hin : (t, i) ∈ coords ti) by by apply elem_of_coords.
    apply elem_of_list_lookup in Hin as [k Hk].
    assert (He : ((fun c => place_tiled ti c.1 c.2) <$> coords ti) !! k = Some (place_tiled ti t i)).
    { rewrite list_lookup_fmap, Hk. done. }
    rewrite coords_places in He. apply lookup_seq in He as [He _]. cbn in He. by rewrite He.
  Qed.
  Lemma place_tiled_lt ti t i : within t (counts_of ti) -> within i (sizes_of ti) -> place_tiled ti t i < tiled_entries ti.
  Proof. intros Ht Hi. rewrite <- coords_length. by apply lookup_lt_is_Some_1; rewrite place_tiled_at. Qed.

  Lemma make_tiled_ok_ge T0 org ti : sizes_positive ti -> extent_prod (strides_of ti) <= length org ->
    exists R, make_tiled T0 (length ti) org ti = Ok R /\ is_tiled ti org R /\
      (forall k, tiled_entries ti <= k < length org -> R !! k = Some T0).
  Proof.
    intros Hp Hlen. eexists. split; [by apply make_tiled_values_ge|].
    assert (Hv : length (tiled_values T0 ti org) = tiled_entries ti) by (unfold tiled_values; by rewrite fmap_length, coords_length).
    pose proof (counts_sizes_le ti) as Hle. split; [split|].
    - rewrite app_length, replicate_length, Hv. lia.
    - intros t i Ht Hi.
      destruct (lookup_lt_is_Some_2 org (place_original ti t i)) as [x Hx].
      { eapply Nat.lt_le_trans; [by apply place_original_lt|exact Hlen]. }
      exists x. split; [done|]. rewrite lookup_app_l by (rewrite Hv; by apply place_tiled_lt).
      unfold tiled_values. rewrite list_lookup_fmap, place_tiled_at by done. cbn. unfold orig_at. by rewrite Hx.
    - intros k Hk. rewrite lookup_app_r by lia. apply lookup_replicate. split; [done|lia].
  Qed.
  Lemma make_tiled_ok T0 org ti : sizes_positive ti -> length org = extent_prod (strides_of ti) ->
    exists R, make_tiled T0 (length ti) org ti = Ok R /\ is_tiled ti org R /\
      (forall k, tiled_entries ti <= k < length org -> R !! k = Some T0).
  Proof. intros Hp Hlen. apply make_tiled_ok_ge; [exact Hp|by rewrite Hlen]. Qed.

  Lemma divide_entries ti : sizes_positive ti -> sizes_divide ti -> tiled_entries ti = extent_prod (strides_of ti).
  Proof.
    unfold tiled_entries, counts_of, sizes_of, strides_of, sizes_positive, sizes_divide.
    induction ti as [|a ti IH]; intros Hp Hd; [done|].
    inversion Hp; subst. inversion Hd; subst. cbn. rewrite <- IH by assumption.
    assert (He : stride a / tile_size_dir a * tile_size_dir a = stride a).
    { match goal with H : (_ | _) |- _ => destruct H as [q ->] end. rewrite Nat.div_mul by lia. done. }
    rewrite <- He at 2. lia.
  Qed.
  Lemma original_NoDup ti : NoDup ((fun c => place_original ti c.1 c.2) <$> coords ti).
  Proof.
    apply NoDup_fmap_2_strong.
    - intros [t i] [t' i'] H1 H2 He. apply elem_of_coords in H1 as [? ?], H2 as [? ?]. cbn in He.
      destruct (place_original_inj ti t i t' i') as [-> ->]; done.
    - apply (NoDup_fmap_1 (fun c => place_tiled ti c.1 c.2)). rewrite coords_places. apply NoDup_seq.
  Qed.
  Lemma places_perm ti : sizes_positive ti -> sizes_divide ti ->
    (fun c => place_original ti c.1 c.2) <$> coords ti ≡ₚ seq 0 (extent_prod (strides_of ti)).
  Proof.
    intros Hp Hd. pose proof (divide_entries ti Hp Hd) as He.
    apply NoDup_Permutation_bis; [apply NoDup_ListNoDup, original_NoDup| |].
    - rewrite fmap_length, coords_length, seq_length. lia.
    - intros n Hn. apply elem_of_list_In in Hn. apply elem_of_list_In.
      apply elem_of_list_fmap in Hn as ([t i] & -> & Hc). apply elem_of_coords in Hc as [? ?].
      apply elem_of_seq. cbn. pose proof (place_original_lt ti t i). auto with lia.
  Qed.
  Lemma make_tiled_perm T0 org ti R : sizes_positive ti -> sizes_divide ti -> length org = extent_prod (strides_of ti) ->
    make_tiled T0 (length ti) org ti = Ok R -> R ≡ₚ org.
  Proof.
    intros Hp Hd Hlen. rewrite make_tiled_values by done. pose proof (divide_entries ti Hp Hd) as He.
    rewrite He, Hlen, Nat.sub_diag. cbn. rewrite app_nil_r. intros [= <-].
    assert (Horg : org = orig_at T0 org <$> seq 0 (length org)).
    { apply list_eq. intros n. rewrite list_lookup_fmap. destruct (decide (n < length org)) as [Hn|Hn].
      - rewrite lookup_seq_lt by done. cbn. unfold orig_at. by destruct (lookup_lt_is_Some_2 org n Hn) as [x ->].
      - rewrite lookup_seq_ge, lookup_ge_None_2 by lia. done. }
    rewrite Horg at 2. unfold tiled_values.
    rewrite (list_fmap_compose (fun c => place_original ti c.1 c.2) (orig_at T0 org)). apply fmap_Permutation.
    rewrite Hlen. by apply places_perm.
  Qed.

  (** Entries outside the full tiles have no influence. *)
  Lemma full_not_remainder ti t i : within t (counts_of ti) -> within i (sizes_of ti) ->
    ~ in_remainder ti (zip_with Nat.add (zip_with Nat.mul t (sizes_of ti)) i).
  Proof.
    intros Ht Hi [_ (d & a & c & Ha & Hc & Hle)].
    apply lookup_zip_with_Some in Hc as (x & y & -> & Hx & Hy).
    apply lookup_zip_with_Some in Hx as (z & w & -> & Hz & Hw).
    unfold sizes_of in Hw. rewrite list_lookup_fmap, Ha in Hw. injection Hw as <-.
    assert (z < stride a / tile_size_dir a).
    { eapply (within_lookup _ _ d); [exact Ht|exact Hz|]. unfold counts_of. rewrite list_lookup_fmap, Ha. done. }
    assert (y < tile_size_dir a).
    { eapply (within_lookup _ _ d); [exact Hi|exact Hy|]. unfold sizes_of. rewrite list_lookup_fmap, Ha. done. }
    assert (S z * tile_size_dir a <= stride a / tile_size_dir a * tile_size_dir a) by (apply Nat.mul_le_mono_r; lia). lia.
  Qed.
  Lemma make_tiled_strip T0 org org' ti : sizes_positive ti -> length org = extent_prod (strides_of ti) ->
    length org' = length org ->
    (forall idx, within idx (strides_of ti) -> ~ in_remainder ti idx ->
       org !! row_major (strides_of ti) idx = org' !! row_major (strides_of ti) idx) ->
    make_tiled T0 (length ti) org ti = make_tiled T0 (length ti) org' ti.
  Proof.
    intros Hp Hlen Hl Ha. rewrite !make_tiled_values by (done || lia). rewrite Hl. do 2 f_equal.
    unfold tiled_values. apply Forall_fmap_ext_1. apply Forall_forall. intros [t i] Hc.
    apply elem_of_coords in Hc as [Ht Hi]. unfold orig_at, place_original. cbn [fst snd].
    rewrite Ha; [done|by apply combine_within|by apply full_not_remainder].
  Qed.
  Lemma make_tiled_absent T0 org ti R idx x : sizes_positive ti -> length org = extent_prod (strides_of ti) ->
    make_tiled T0 (length ti) org ti = Ok R -> NoDup org -> in_remainder ti idx ->
    org !! row_major (strides_of ti) idx = Some x -> x <> T0 -> x ∉ R.
  Proof.
    intros Hp Hlen HR Hnd Hrem Hx Hne Hin. rewrite make_tiled_values in HR by done. injection HR as <-.
    apply elem_of_app in Hin as [Hin|Hin].
    - unfold tiled_values in Hin. apply elem_of_list_fmap in Hin as ([t i] & He & Hc).
      apply elem_of_coords in Hc as [Ht Hi]. cbn [fst snd] in He.
      destruct (lookup_lt_is_Some_2 org (place_original ti t i)) as [y Hy].
      { rewrite Hlen. by apply place_original_lt. }
      unfold orig_at in He. rewrite Hy in He. subst y.
      assert (Hp' := NoDup_lookup _ _ _ _ Hnd Hx Hy). unfold place_original in Hp'.
      apply rm_inj in Hp'; [|exact (proj1 Hrem)|by apply combine_within]. subst idx.
      by eapply full_not_remainder.
    - apply elem_of_replicate in Hin as [-> _]. done.
  Qed.
  Lemma make_tiled_wrong T0 dim org ti : length ti <> dim -> make_tiled T0 dim org ti = Fail EException.
  Proof. intros H. unfold make_tiled. destruct (Nat.eqb_spec (length ti) dim); done. Qed.
End MakeTiled.

(** * flat_index *)
Lemma flat_index_rev index strides : length index = length strides ->
  flat_index index strides = Ok (row_major (reverse strides) index).
Proof.
  intros Hl. unfold flat_index. rewrite <- (rev_offset_Ok (length index) index (reverse strides) (lget index)
     (fun d => lget strides (length index - 1 - d))).
  - unfold rev_offset. f_equal. apply foldR_ext. intros d s Hd. apply elem_of_seq in Hd.
    replace (length index - 1 - (length index - 1 - d)) with d by lia. done.
  - done.
  - by rewrite reverse_length.
  - intros d Hd. by apply lget_total.
  - intros d Hd. rewrite lget_total by lia. f_equal. symmetry. apply list_lookup_total_correct.
    rewrite reverse_lookup by lia. rewrite list_lookup_lookup_total_lt by lia.
    do 2 f_equal. lia.
Qed.
