(** Proofs about iterate_indices: all schedules, the call log. *)
From Verif Require Import Tools MIter SpecIter PIter.

Lemma coords_orb pd pd' p p' :
  length pd' = length pd -> length p = length pd -> length p' = length pd ->
  coords (zip_with orb pd pd') p = coords (zip_with orb pd pd') p' ->
  coords pd p = coords pd p' /\ coords pd' p = coords pd' p'.
Proof.
  revert pd' p p'. induction pd as [|b pd IH]; intros [|b' pd'] [|x p] [|x' p'] L1 L2 L3 He; try done.
  simpl in L1, L2, L3. cbn [zip_with coords] in *.
  destruct b, b'; cbn [orb] in He; simplify_eq; edestruct (IH pd' p p') as [-> ->]; done || lia.
Qed.
Lemma coords_corner pd mn mx b s cur cur' p p' :
  gridS mn mx b cur -> gridS mn mx b cur' -> gridS cur (vadd2 cur b) s p -> gridS cur' (vadd2 cur' b) s p' ->
  coords pd p = coords pd p' -> coords pd cur = coords pd cur'.
Proof.
  revert pd mx b s cur cur' p p'. induction mn as [|m mn IH]; intros pd [|x mx] [|bb b] s [|c cur] [|c' cur'] p p'; try done.
  destruct s as [|ss s], p as [|y p], p' as [|y' p']; try done.
  change (vadd2 (c :: cur) (bb :: b)) with (c + bb :: vadd2 cur b).
  change (vadd2 (c' :: cur') (bb :: b)) with (c' + bb :: vadd2 cur' b). cbn [gridS].
  intros [(q&Hq&_) H1] [(q'&Hq'&_) H2] [(r&Hr&Hr2) H3] [(r'&Hr'&Hr2') H4].
  destruct pd as [|f pd]; [done|]. cbn [coords]. destruct f.
  - intros [= -> He]. pose proof (Nat.le_0_l (r * ss)) as E1. pose proof (Nat.le_0_l (r' * ss)) as E2. f_equal.
    + apply (same_block m bb c c' y' q q'); clear - Hq Hq' Hr Hr2 Hr' Hr2' E1 E2; try assumption; lia.
    + by eapply IH.
  - intros He. by eapply IH.
Qed.
Lemma length_par_dims dim conf : nested dim conf -> length (par_dims dim conf) = dim.
Proof.
  induction conf as [|[b pd] conf IH]; [done|]. destruct conf as [|c conf]; [intros _; apply replicate_length|].
  intros (_&Lp&_&_&Hn)%nested_step. specialize (IH Hn).
  change (length (zip_with orb pd (par_dims dim (c :: conf))) = dim). rewrite zip_with_length. lia.
Qed.
Lemma vis_length dim conf mn mx p : nested dim conf -> length mn = dim -> length mx = dim -> p ∈ vis conf mn mx -> length p = dim.
Proof. intros Hn L1 L2 Hp. apply (vis_elem dim) in Hp; [|done..]. apply gridS_length in Hp. lia. Qed.

Section Sched.
  Context {T : Type}.
  Implicit Types f : list nat -> prog T unit.

  Lemma drf_iterate (R W : list nat -> loc -> Prop) dim conf mn mx f :
    nested dim conf -> length mn = dim -> length mx = dim ->
    (forall p, p ∈ vis conf mn mx -> drf (f p)) ->
    (forall p, p ∈ vis conf mn mx -> acc_in (R p) (W p) (f p)) ->
    (forall p q l, p ∈ vis conf mn mx -> q ∈ vis conf mn mx ->
       coords (par_dims dim conf) p <> coords (par_dims dim conf) q -> W p l -> R q l \/ W q l -> False) ->
    drf (iterate_conf dim conf mn mx f).
  Proof.
    revert mn mx. induction conf as [|[b pd] conf IH]; intros mn mx Hn L1 L2 Hdrf Hacc Hsep; [done|].
    destruct conf as [|c conf].
    - destruct Hn as (Lb&_&Hpos&_). rewrite iterate_conf_last by done. by apply drf_loop_nest.
    - pose proof (nested_step _ _ _ _ _ Hn) as (Lb&Lp&Hpos&Hdc&Hn'). rewrite iterate_conf_step by done.
      pose proof (length_par_dims dim (c :: conf) Hn') as Lpd.
      change (par_dims dim ((b, pd) :: c :: conf)) with (zip_with orb pd (par_dims dim (c :: conf))) in Hsep.
      assert (forall part cur p, part ∈ partials pd mn mx b -> cur ∈ curs pd part mn mx b ->
        p ∈ vis (c :: conf) cur (vadd2 cur b) -> p ∈ vis ((b, pd) :: c :: conf) mn mx) as Hin.
      { intros part cur p H1 H2 H3. rewrite vis_step. apply elem_of_list_bind. exists part. split; [|done].
        apply elem_of_list_bind. by exists cur. }
      assert (forall part cur, part ∈ partials pd mn mx b -> cur ∈ curs pd part mn mx b -> length cur = dim) as Hcl.
      { intros part cur H1 H2. apply curs_length in H2; [lia|lia..|done|done]. }
      assert (forall cur p, length cur = dim -> p ∈ vis (c :: conf) cur (vadd2 cur b) ->
        gridS cur (vadd2 cur b) (final_step (c :: conf)) p) as Hgr.
      { intros cur p Hl Hp. apply (vis_elem dim) in Hp; [|done|done|by apply length_vadd2].
        rewrite (bound_inner dim) in Hp; done. }
      apply (drf_parL _ _
        (fun part l => exists cur p, cur ∈ curs pd part mn mx b /\ p ∈ vis (c :: conf) cur (vadd2 cur b) /\ R p l)
        (fun part l => exists cur p, cur ∈ curs pd part mn mx b /\ p ∈ vis (c :: conf) cur (vadd2 cur b) /\ W p l)).
      + apply partials_NoDup; [lia..|done].
      + intros part Hp. rewrite part_task_ok by done. apply drf_foldP. intros cur [] Hc.
        specialize (Hcl part cur Hp Hc). rewrite add_block_ok by lia. cbn [ofres pbind].
        apply IH; [done|lia|apply length_vadd2; lia| | |].
        * intros p Hpv. apply Hdrf. by eapply Hin.
        * intros p Hpv. apply Hacc. by eapply Hin.
        * intros p q l Hpv Hqv Hne. apply Hsep; [by eapply Hin..|]. intros He. apply Hne.
          apply (vis_length dim) in Hpv; [|done|lia|apply length_vadd2; lia].
          apply (vis_length dim) in Hqv; [|done|lia|apply length_vadd2; lia].
          eapply coords_orb in He as [_ He]; [done|lia..].
      + intros part Hp. rewrite part_task_ok by done. apply acc_in_foldP. intros cur [] Hc.
        pose proof (Hcl part cur Hp Hc) as Lc. rewrite add_block_ok by lia. cbn [ofres pbind].
        apply acc_in_iterate; [done|lia|apply length_vadd2; lia|]. intros p Hpv.
        eapply acc_in_mono; [| |apply Hacc; by eapply Hin].
        * intros l Hl. left. by exists cur, p.
        * intros l Hl. by exists cur, p.
      + intros part part' l Hp Hp' Hne (cur&p&Hc&Hpv&HW) HRW.
        assert (exists cur' p', cur' ∈ curs pd part' mn mx b /\ p' ∈ vis (c :: conf) cur' (vadd2 cur' b) /\ (R p' l \/ W p' l))
          as (cur'&p'&Hc'&Hpv'&HRW').
        { destruct HRW as [(c1&p1&?&?&?)|(c1&p1&?&?&?)]; exists c1, p1; auto. }
        pose proof (Hcl part cur Hp Hc) as Lc. pose proof (Hcl part' cur' Hp' Hc') as Lc'.
        refine (Hsep p p' l _ _ _ HW HRW'); [exact (Hin _ _ _ Hp Hc Hpv)|exact (Hin _ _ _ Hp' Hc' Hpv')|]. intros He. apply Hne.
        pose proof (Hgr cur p Lc Hpv) as Hg. pose proof (Hgr cur' p' Lc' Hpv') as Hg'.
        pose proof (gridS_length _ _ _ _ Hg). pose proof (gridS_length _ _ _ _ Hg').
        eapply coords_orb in He as [He _]; [|lia..].
        assert (gridS mn mx b cur) as Hm.
        { apply (corners_elem pd); [lia..|done|]. apply elem_of_list_bind. by exists part. }
        assert (gridS mn mx b cur') as Hm'.
        { apply (corners_elem pd); [lia..|done|]. apply elem_of_list_bind. by exists part'. }
        pose proof (coords_corner pd _ _ _ _ _ _ _ _ Hm Hm' Hg Hg' He) as Hcc.
        assert (length part = length (flagged 0 pd)) by (by apply (partials_length pd mn mx b); [lia..|]).
        assert (length part' = length (flagged 0 pd)) by (by apply (partials_length pd mn mx b); [lia..|]).
        apply curs_elem in Hc as [<- _]; [|lia..|done|done].
        apply curs_elem in Hc' as [<- _]; [done|lia..|done|done].
  Qed.
End Sched.

Lemma length_final dim conf : nested dim conf -> length (final_step conf) = dim.
Proof. destruct conf as [|[b pd] conf]; [done|]. intros Hn. by destruct (nested_final _ _ _ _ Hn). Qed.
Lemma length_bound dim conf mn mx : nested dim conf -> length mn = dim -> length mx = dim -> length (bound conf mn mx) = dim.
Proof.
  intros Hn L1 L2. destruct conf as [|[b pd] [|c conf]]; [done|done|]. apply nested_step in Hn as (Lb&_).
  cbn [bound]. unfold vadd2, round_up, extent. rewrite !zip_with_length. lia.
Qed.
Lemma vis_lists dim conf mn mx :
  nested dim conf -> length mn = dim -> length mx = dim ->
  lists_grid mn (bound conf mn mx) (final_step conf) (vis conf mn mx).
Proof.
  intros Hn L1 L2. split; [by apply (vis_NoDup dim)|]. intros p. rewrite (vis_elem dim) by done.
  apply gridS_spec; [rewrite (length_bound dim) by done|rewrite (length_final dim) by done]; lia.
Qed.
Lemma bound_exact dim conf mn mx :
  nested dim conf -> length mn = dim -> length mx = dim -> Forall2 le mn mx ->
  match conf with (b, _) :: _ :: _ => divides_all b (extent mn mx) | _ => True end ->
  bound conf mn mx = mx.
Proof.
  intros Hn L1 L2 Hle Hd. destruct conf as [|[b pd] [|c conf]]; [done|done|].
  apply nested_step in Hn as (Lb&_&Hpos&_). cbn [bound]. clear L1 L2 c conf pd.
  revert b dim Lb Hpos Hd. induction Hle as [|m x mn mx Hmx Hle IH]; intros b dim Lb Hpos Hd; [done|].
  unfold extent in Hd. cbn [zip_with] in Hd. inversion Hd as [|y ? b' ? Hy Hd']; subst. inversion Hpos; subst.
  change (m + cdiv (x - m) y * y :: vadd2 mn (round_up (extent mn mx) b') = x :: mx).
  rewrite (IH b' (length b')) by done. f_equal. rewrite cdiv_exact by assumption. lia.
Qed.

Section AnyBody.
  Context {T : Type}.
  Lemma iterate_any_body dim conf mn mx (f : list nat -> prog T unit) m m' :
    nested dim conf -> length mn = dim -> length mx = dim ->
    (forall p, p ∈ vis conf mn mx -> drf (f p)) ->
    independent (par_dims dim conf) (vis conf mn mx) f ->
    run (foldP (vis conf mn mx) (fun p _ => f p) tt) m = Ok (tt, m') ->
    must (fun _ => False) (fun _ m1 => m1 = m') (iterate_conf dim conf mn mx f) m.
  Proof.
    intros Hn L1 L2 Hd (R&W&HRW&Hsep) Hr. eapply drf_must; [|rewrite run_iterate by done; exact Hr|done].
    by apply (drf_iterate R W).
  Qed.
End AnyBody.

Section Log.
  Context (pd : list bool).
  Lemma does_log_call p : does (log_call pd p) [((coords pd p, 0), fun l => l ++ [p])].
  Proof. apply (does_rmw (coords pd p) 0 (fun l => l ++ [p])). Qed.
  Lemma run_alloc_keys (keys : list (list nat)) (m : mem (list (list nat))) :
    exists m', run (foldP keys (fun k _ => Alloc (k, 0) (VD []) (Ret tt)) tt) m = Ok (tt, m') /\
      (forall k, k ∈ keys -> m' !! ((k, 0) : loc) = Some (VD [])) /\
      (forall l, m !! l = Some (VD []) -> m' !! l = Some (VD [])).
  Proof.
    revert m. induction keys as [|k keys IH]; intros m.
    - exists m. split_and!; [done|by intros ? ?%elem_of_nil|done].
    - cbn [foldP pbind run]. destruct (IH (<[((k, 0) : loc) := VD []]> m)) as (m'&Hr&Hk&Hl).
      exists m'. split_and!; [done| |].
      + intros k' [->|Hk']%elem_of_cons; [|by apply Hk]. apply Hl. by rewrite lookup_insert.
      + intros l Hm. apply Hl. destruct (decide (l = (k, 0))) as [->|]; [by rewrite lookup_insert|by rewrite lookup_insert_ne].
  Qed.
  Lemma log_contrib k (ord : list (list nat)) acc :
    fold_upd (contrib ((k, 0) : loc) (ord ≫= fun p => [(((coords pd p, 0) : loc), fun l : list (list nat) => l ++ [p])])) acc
    = acc ++ filter (fun p => coords pd p = k) ord.
  Proof.
    revert acc. induction ord as [|p ord IH]; intros acc; [cbn; by rewrite app_nil_r|].
    rewrite bind_cons, contrib_app, fold_upd_app, IH.
    destruct (decide (coords pd p = k)) as [<-|Hne].
    - rewrite contrib_single_eq, filter_cons_True by done. unfold fold_upd. simpl. by rewrite <- app_assoc.
    - rewrite contrib_single_ne, filter_cons_False by (congruence || done). done.
  Qed.
  Lemma run_read_keys (keys : list (list nat)) (m : mem (list (list nat))) g acc :
    (forall k, k ∈ keys -> m !! ((k, 0) : loc) = Some (VD (g k))) ->
    run (foldP keys (fun k acc => let! l := rd k 0 in Ret (acc ++ [l])) acc) m = Ok (acc ++ (g <$> keys), m).
  Proof.
    revert acc. induction keys as [|k keys IH]; intros acc Hg; [cbn; by rewrite app_nil_r|].
    cbn [foldP]. rewrite run_bind. unfold rd. cbn [pbind run]. rewrite (Hg k) by (apply elem_of_cons; by left).
    cbn [pbind run]. rewrite IH.
    - cbn [fmap list_fmap]. by rewrite <- app_assoc.
    - intros k' Hk'. apply Hg, elem_of_cons. by right.
  Qed.
  Lemma acc_in_log_call p : acc_in (fun _ => False) (fun l => l = ((coords pd p, 0) : loc)) (log_call pd p).
  Proof.
    apply acc_in_bind; [apply acc_in_rd; by right|]. intros l. by apply acc_in_wr.
  Qed.
  Lemma drf_log_call p : drf (log_call pd p).
  Proof. apply drf_bind; [apply drf_rd|]. intros l. apply drf_wr. Qed.
End Log.

Lemma iterate_log dim conf mn mx keys :
  nested dim conf -> length mn = dim -> length mx = dim ->
  let pd := par_dims dim conf in
  (forall p, p ∈ vis conf mn mx -> coords pd p ∈ keys) ->
  always (call_log keys pd (iterate_conf dim conf mn mx))
    (fun logs => logs = (fun k => filter (fun p => coords pd p = k) (vis conf mn mx)) <$> keys).
Proof.
  intros Hn L1 L2 pd Hk. destruct (run_alloc_keys keys ∅) as (m1&Hr1&Hm1&_).
  set (us := vis conf mn mx ≫= fun p => [(((coords pd p, 0) : loc), fun l : list (list nat) => l ++ [p])]).
  assert (run (iterate_conf dim conf mn mx (log_call pd)) m1 = Ok (tt, applyM us m1)) as Hr2.
  { rewrite run_iterate by done.
    apply (does_foldP (vis conf mn mx) (log_call pd) (fun p => [(((coords pd p, 0) : loc), fun l => l ++ [p])])).
    - intros p _. apply does_log_call.
    - intros u (p&Hu&Hp)%elem_of_list_bind. apply elem_of_list_singleton in Hu as ->. exists [].
      apply Hm1. by apply Hk. }
  apply (always_intro _ ((fun k => filter (fun p => coords pd p = k) (vis conf mn mx)) <$> keys) (applyM us m1)); [| |done].
  - unfold call_log. apply drf_bind; [apply drf_foldP; intros k [] _; exact I|intros _].
    apply drf_bind; [|intros _; apply drf_foldP; intros k acc _; apply drf_bind; [apply drf_rd|intros; exact I]].
    apply (drf_iterate (fun _ _ => False) (fun p l => l = ((coords pd p, 0) : loc))); try done.
    + intros p _. apply drf_log_call.
    + intros p _. apply acc_in_log_call.
    + intros p q l _ _ Hne -> [[]|[= He]]. done.
  - unfold call_log. rewrite run_bind, Hr1, run_bind, Hr2.
    rewrite (run_read_keys keys _ (fun k => filter (fun p => coords pd p = k) (vis conf mn mx))); [done|].
    intros k Hkk. rewrite applyM_lookup, (Hm1 k Hkk). cbn [fmap option_fmap option_map liftD].
    do 2 f_equal. unfold us. by rewrite (log_contrib pd k (vis conf mn mx) []).
Qed.

(** ---- C34 ---- *)
Lemma counts_ecounts mn mx st :
  length mx = length mn -> length st = length mn -> positive st -> Forall2 lt mn mx -> ecounts mn mx st = counts mn mx st.
Proof.
  unfold counts. intros L1 L2 Hpos Hlt. revert st L1 L2 Hpos.
  induction Hlt as [|m x mn mx Hmx Hlt IH]; intros [|s st] L1 L2 Hpos; try done.
  inversion Hpos; subst. simpl in *. f_equal; [|apply IH; lia || done].
  unfold ecount. assert (0 < cdiv (x - m) s) by (apply cdiv_pos; lia). lia.
Qed.
Lemma effS_grid mn mx st p :
  length mx = length mn -> length st = length mn -> positive st -> Forall2 lt mn mx ->
  effS mn mx st p <-> gridS mn mx st p.
Proof.
  intros L1 L2 Hpos Hlt. revert st p L1 L2 Hpos.
  induction Hlt as [|m x mn mx Hmx Hlt IH]; intros [|s st] p L1 L2 Hpos; try done.
  inversion Hpos; subst. destruct p as [|c p]; [done|]. simpl in *. rewrite IH by (lia || done).
  by rewrite eff_grid.
Qed.
Lemma gpoint_digits mn mx st k :
  length mx = length mn -> length st = length mn -> positive st -> Forall2 lt mn mx ->
  gpoint mn mx st k = at_digits mn st (digits (counts mn mx st) k).
Proof. intros. unfold gpoint. by rewrite counts_ecounts, at_digits_dig. Qed.

Lemma dim_index_iterator_enumerates mn mx st :
  length mx = length mn -> length st = length mn -> positive st -> Forall2 lt mn mx ->
  let n := prodl (counts mn mx st) in
  exists l, dim_index_iterator mn mx st = Ok mn /\ iterates n mn mx st mn = Ok l /\
    lists_grid mn mx st l /\
    (forall k, k < n -> l !! k = Some (at_digits mn st (digits (counts mn mx st) k))) /\
    (forall k, iterates (n + k) mn mx st mn = Ok (l ++ replicate k (at_digits mn st (digits (counts mn mx st) (n - 1))))).
Proof.
  intros L1 L2 Hpos Hlt n.
  assert (prodl (ecounts mn mx st) = n) as En by (unfold n; by rewrite counts_ecounts).
  exists (gpoint mn mx st <$> seq 0 n). split_and!.
  - by apply dim_index_iterator_ok.
  - apply iterates_ok; [done..|lia].
  - split; [apply gpoint_NoDup; [done..|lia]|]. intros p. rewrite <- En, gpoint_elem, effS_grid by done.
    by apply gridS_spec.
  - intros k Hk. rewrite list_lookup_fmap, lookup_seq_lt by done. simpl. by rewrite gpoint_digits.
  - intros k. pose proof (iterates_gpoint mn mx st (n + k) 0 L1 L2 Hpos) as Hi. cbv zeta in Hi.
    rewrite En in Hi. cbn [Nat.min] in Hi. rewrite gpoint_0 in Hi by done. rewrite Hi. f_equal.
    assert (0 < n) by (rewrite <- En; apply prodl_pos, ecounts_pos).
    rewrite seq_app, fmap_app. f_equal.
    + apply list_fmap_ext. intros i x Hx. apply lookup_seq in Hx. f_equal. lia.
    + rewrite <- gpoint_digits by done.
      assert (forall a, n <= a -> (fun i => gpoint mn mx st (i `min` (n - 1))) <$> seq a k = replicate k (gpoint mn mx st (n - 1))) as Hc.
      { clear Hi. induction k as [|k IH]; intros a Ha; [done|]. cbn [seq fmap list_fmap replicate].
        f_equal; [f_equal; lia|]. apply IH. lia. }
      apply Hc. lia.
Qed.

(** ---- C35 ---- *)
From Coq Require Import Sorting.Sorted.
Lemma StronglySorted_app {X} (R : X -> X -> Prop) l1 l2 :
  StronglySorted R l1 -> StronglySorted R l2 -> (forall x y, x ∈ l1 -> y ∈ l2 -> R x y) -> StronglySorted R (l1 ++ l2).
Proof.
  induction l1 as [|a l1 IH]; intros H1 H2 Hc; [done|]. simpl. inversion H1; subst. constructor.
  - apply IH; [done|done|]. intros x y Hx Hy. apply Hc; [apply elem_of_cons; by right|done].
  - apply Forall_app. split; [done|]. apply Forall_forall. intros y Hy. apply Hc; [apply elem_of_cons; by left|done].
Qed.
Lemma StronglySorted_fmap {X Y} (R : X -> X -> Prop) (R' : Y -> Y -> Prop) (h : X -> Y) l :
  (forall x y, R x y -> R' (h x) (h y)) -> StronglySorted R l -> StronglySorted R' (h <$> l).
Proof.
  intros Hh. induction 1 as [|a l Hl IH Ha]; [constructor|]. cbn [fmap list_fmap]. constructor; [done|].
  apply Forall_fmap. eapply Forall_impl; [exact Ha|]. intros x. apply Hh.
Qed.
Lemma lexg_sorted mn mx st : positive st -> StronglySorted lex_lt (lexg mn mx st).
Proof.
  revert mx st. induction mn as [|m mn IH]; intros [|x mx] [|s st] Hpos; try (constructor; constructor).
  inversion Hpos as [|? ? Hs Hpos']; subst. cbn [lexg].
  assert (StronglySorted lt (rng m x s)) as Hr.
  { unfold rng. generalize (x - m) as fuel. intros fuel. clear - Hs. revert m.
    induction fuel as [|fuel IH]; intros m; [constructor|]. cbn [rng_fuel]. destruct (m <? x); [|constructor].
    constructor; [apply IH|]. apply Forall_forall. intros y Hy%rng_fuel_lb. lia. }
  induction Hr as [|c l Hl IHl Hc]; [constructor|]. rewrite bind_cons. apply StronglySorted_app; [|done|].
  - apply (StronglySorted_fmap lex_lt); [|by apply IH]. intros p q Hpq. simpl. by right.
  - intros p q (p'&->&_)%elem_of_list_fmap (c'&(q'&->&_)%elem_of_list_fmap&Hc')%elem_of_list_bind.
    simpl. left. rewrite Forall_forall in Hc. by apply Hc.
Qed.
Section LoopNest.
  Context {T : Type}.
  Lemma loop_nest_lex dim mn mx st :
    length mn = dim -> length mx = dim -> length st = dim -> positive st ->
    exists l, lists_grid mn mx st l /\ StronglySorted lex_lt l /\
      forall (f : list nat -> prog T unit) m,
        run (loop_nest dim mn mx st f) m = run (foldP l (fun p _ => f p) tt) m.
  Proof.
    intros L1 L2 L3 Hpos. exists (lexg mn mx st). split_and!.
    - split; [by apply lexg_NoDup|]. intros p. rewrite lexg_elem by (lia || done). apply gridS_spec; lia.
    - by apply lexg_sorted.
    - intros f m. by apply run_loop_nest.
  Qed.

  (** A zero step in a non-empty nest. *)
  Lemma execute_looped_diverges (f : list nat -> prog T unit) pm px ps mn mx st args m :
    length pm = length args -> length px = length args -> length ps = length args ->
    length mx = length mn -> length st = length mn -> Forall2 lt mn mx -> Exists (fun s => s = 0) st ->
    (forall p m, exists m', run (f p) m = Ok (tt, m')) ->
    run (execute_looped (length mn) (length args) (pm ++ mn) (px ++ mx) (ps ++ st) f args) m = Fail EDiverge.
  Proof.
    intros L1 L2 L3 L4 L5 Hlt. revert pm px ps st args m L1 L2 L3 L4 L5.
    induction Hlt as [|lo hi mn mx Hlh Hlt IH]; intros pm px ps [|s st] args m L1 L2 L3 L4 L5 Hz Hf; try done.
    { by apply Exists_nil in Hz. }
    cbn [length execute_looped]. rewrite (lget_app pm lo), (lget_app px hi), (lget_app ps s) by done.
    cbn [ofres pbind].
    assert (forall c m, Exists (fun s => s = 0) st ->
      run (execute_looped (length mn) (S (length args)) (pm ++ lo :: mn) (px ++ hi :: mx) (ps ++ s :: st) f (args ++ [c])) m = Fail EDiverge) as Hrec.
    { intros c m' Hz'. pose proof (IH (pm ++ [lo]) (px ++ [hi]) (ps ++ [s]) st (args ++ [c]) m') as IH'.
      rewrite !app_length, !Nat.add_1_r in IH'. rewrite <- !app_assoc in IH'. simpl in *. apply IH'; done || lia. }
    destruct (decide (s = 0)) as [->|Hs].
    - unfold forP, forS. rewrite (proj2 (Nat.ltb_lt lo hi)) by done. cbn [Nat.eqb andb].
      rewrite run_bind. destruct (decide (Exists (fun s => s = 0) st)) as [Hz'|Hz'].
      + by rewrite Hrec.
      + assert (positive st) as Hpos.
        { apply not_Exists_Forall in Hz'; [|intros ?; apply _]. eapply Forall_impl; [exact Hz'|]. simpl. lia. }
        pose proof (run_execute_looped f (pm ++ [lo]) (px ++ [hi]) (ps ++ [0]) mn mx st (args ++ [lo]) m) as He.
        rewrite !app_length, !Nat.add_1_r in He. rewrite <- !app_assoc in He. simpl in *.
        rewrite He by (done || lia).
        assert (forall l m, exists m', run (foldP l (fun p _ => f (args ++ lo :: p)) tt) m = Ok (tt, m')) as Hok.
        { clear - Hf. intros l. induction l as [|p l IH]; intros m; [by exists m|]. cbn [foldP]. rewrite run_bind.
          destruct (Hf (args ++ lo :: p) m) as [m' ->]. apply IH. }
        assert (run (foldP (lexg mn mx st) (fun p _ => f ((args ++ [lo]) ++ p)) tt) m =
                run (foldP (lexg mn mx st) (fun p _ => f (args ++ lo :: p)) tt) m) as Heq.
        { apply (run_foldP_ext (lexg mn mx st) (fun p => f ((args ++ [lo]) ++ p)) (fun p => f (args ++ lo :: p))).
          intros p m' _. by rewrite <- app_assoc. }
        destruct (Hok (lexg mn mx st) m) as [m' Hm']. rewrite Hm' in Heq.
        match goal with |- context [run ?a m] => assert (run a m = Ok (tt, m')) as -> end; [|done].
        etransitivity; [|exact Heq]. done.
    - assert (Exists (fun s => s = 0) st) as Hz' by (inversion Hz; subst; done).
      unfold forP. rewrite forS_step, rng_cons by lia. cbn [foldP]. rewrite run_bind, Hrec by done. done.
  Qed.
  Lemma loop_nest_diverges dim mn mx st (f : list nat -> prog T unit) m :
    length mn = dim -> length mx = dim -> length st = dim -> Forall2 lt mn mx -> Exists (fun s => s = 0) st ->
    (forall p m, exists m', run (f p) m = Ok (tt, m')) ->
    run (loop_nest dim mn mx st f) m = Fail EDiverge.
  Proof.
    intros <- L1 L2. exact (execute_looped_diverges f [] [] [] mn mx st [] m eq_refl eq_refl eq_refl L1 L2).
  Qed.

  Lemma execute_looped_err (E : err -> Prop) (f : list nat -> prog T unit) pm px ps mn mx st args :
    E EDiverge -> (forall p, err_in E (f p)) ->
    length pm = length args -> length px = length args -> length ps = length args ->
    length mx = length mn -> length st = length mn ->
    err_in E (execute_looped (length mn) (length args) (pm ++ mn) (px ++ mx) (ps ++ st) f args).
  Proof.
    intros HE Hf. revert pm px ps mx st args.
    induction mn as [|lo mn IH]; intros pm px ps [|hi mx] [|s st] args L1 L2 L3 L4 L5; try done.
    cbn [length execute_looped]. rewrite (lget_app pm lo), (lget_app px hi), (lget_app ps s) by done.
    cbn [ofres pbind].
    assert (forall c, err_in E (execute_looped (length mn) (S (length args)) (pm ++ lo :: mn) (px ++ hi :: mx) (ps ++ s :: st) f (args ++ [c]))) as Hrec.
    { intros c. pose proof (IH (pm ++ [lo]) (px ++ [hi]) (ps ++ [s]) mx st (args ++ [c])) as IH'.
      rewrite !app_length, !Nat.add_1_r in IH'. rewrite <- !app_assoc in IH'. simpl in *. apply IH'; done || lia. }
    unfold forP, forS. destruct ((lo <? hi) && (s =? 0)).
    - apply err_in_bind; [apply Hrec|]. done.
    - generalize (rng lo hi s) as l. intros l. induction l as [|c l IHl]; [done|]. cbn [foldP].
      apply err_in_bind; [apply Hrec|]. intros []. apply IHl.
  Qed.
  Lemma execute_looped_drf (f : list nat -> prog T unit) dim cur mn mx st args :
    (forall p, drf (f p)) -> drf (execute_looped dim cur mn mx st f args).
  Proof.
    intros Hf. revert cur args. induction dim as [|dim IH]; intros cur args; [apply Hf|]. cbn [execute_looped].
    destruct (lget mn cur); [|done]. destruct (lget mx cur); [|done]. destruct (lget st cur); [|done].
    cbn [ofres pbind]. apply drf_forS. intros x [] _ _. apply IH.
  Qed.
  Lemma err_in_mono {A} (E E' : err -> Prop) (p : prog T A) : (forall e, E e -> E' e) -> err_in E p -> err_in E' p.
  Proof.
    intros HE. induction p as [A a|A e'|A l k IH|A l v k IH|A l v k IH|A p1 IH1 p2 IH2 k IHk]; simpl; try done; auto.
    naive_solver.
  Qed.
  Lemma err_in_none {A} (p : prog T A) m : err_in (fun _ => False) p -> exists a m', run p m = Ok (a, m').
  Proof.
    revert m. induction p as [A a|A e'|A l k IH|A l v k IH|A l v k IH|A p1 IH1 p2 IH2 k IHk]; intros m He; simpl in *; try done; eauto.
    - destruct (m !! l); auto.
    - destruct He as (H1&H2&H3). destruct (IH1 m H1) as (?&m1&->). destruct (IH2 m1 H2) as (?&m2&->). auto.
  Qed.
  Lemma loop_nest_diverges_all dim mn mx st (f : list nat -> prog T unit) m :
    length mn = dim -> length mx = dim -> length st = dim -> Forall2 lt mn mx -> Exists (fun s => s = 0) st ->
    (forall p, drf (f p)) -> (forall p, err_in (fun _ => False) (f p)) ->
    must_fail (fun e => e = EDiverge) (loop_nest dim mn mx st f) m.
  Proof.
    intros L0 L1 L2 Hlt Hz Hd He. eapply drf_must_fail.
    - by apply execute_looped_drf.
    - subst dim. refine (execute_looped_err _ f [] [] [] mn mx st [] eq_refl _ eq_refl eq_refl eq_refl L1 L2).
      intros p. eapply err_in_mono; [|apply He]. done.
    - apply loop_nest_diverges; try done. intros p m'.
      destruct (err_in_none (f p) m' (He p)) as ([]&m''&Hr). by exists m''.
  Qed.
End LoopNest.

(** ---- C33 ---- *)
Lemma not_divide_round e b : 0 < b -> ~ (b | e) -> e < cdiv e b * b.
Proof.
  intros Hb Hn. assert (~ cdiv e b * b <= e) as Hc; [|lia].
  intros Hle. apply Hn. exists (cdiv e b). apply Nat.le_antisymm; [|done].
  destruct (decide (cdiv e b * b < e)) as [Hl|]; [|lia]. apply cdiv_spec in Hl; [|done]. lia.
Qed.
Lemma overshoot dim b pd c conf mn mx d bd m x :
  nested dim ((b, pd) :: c :: conf) -> length mn = dim -> length mx = dim -> Forall2 lt mn mx ->
  final_step (c :: conf) = replicate dim 1 ->
  b !! d = Some bd -> mn !! d = Some m -> mx !! d = Some x -> ~ (bd | x - m) ->
  exists p, p ∈ vis ((b, pd) :: c :: conf) mn mx /\ p !! d = Some x.
Proof.
  intros Hn L1 L2 Hlt Hf Hb Hm Hx Hnd. exists (<[d := x]> mn). split.
  2:{ apply list_lookup_insert. by eapply lookup_lt_Some. }
  apply (vis_elem dim); [done..|]. rewrite final_step_cons, Hf. cbn [bound].
  apply nested_step in Hn as (Lb&_&Hpos&_&_). clear Hf pd c conf.
  rewrite <- L1 in Lb, L2 |- *. clear dim L1.
  revert b d Lb Hpos Hb Hm Hx L2. induction Hlt as [|m' x' mn mx Hmx Hlt IH]; intros [|b' b] d Lb Hpos Hb Hm Hx L2; try done.
  inversion Hpos as [|? ? Hb' Hpos']; subst.
  change (vadd2 (m' :: mn) (round_up (extent (m' :: mn) (x' :: mx)) (b' :: b))) with
    (m' + cdiv (x' - m') b' * b' :: vadd2 mn (round_up (extent mn mx) b)).
  cbn [length replicate]. simpl in Lb, L2.
  assert (forall y, m' <= y -> y < x' + 1 -> y < m' + cdiv (x' - m') b' * b' -> exists q, y = m' + q * 1 /\ y < m' + cdiv (x' - m') b' * b') as Hq.
  { intros y Hy _ Hy'. exists (y - m'). lia. }
  assert (x' - m' <= cdiv (x' - m') b' * b') as Hge.
  { destruct (decide (cdiv (x' - m') b' * b' < x' - m')) as [Hl|]; [|lia]. apply cdiv_spec in Hl; [lia|done]. }
  destruct d as [|d].
  - simplify_eq/=. split.
    + apply Hq; [lia|lia|]. pose proof (not_divide_round _ _ Hb' Hnd). lia.
    + clear - Hlt Hpos' Lb L2. assert (length mx = length mn) as L3 by lia. clear L2.
      revert b Lb Hpos'. induction Hlt as [|m x mn mx Hmx Hlt IH]; intros [|b' b] Lb Hpos; try done.
      inversion Hpos as [|? ? Hb' Hpos']; subst.
      change (vadd2 (m :: mn) (round_up (extent (m :: mn) (x :: mx)) (b' :: b))) with
        (m + cdiv (x - m) b' * b' :: vadd2 mn (round_up (extent mn mx) b)). simpl in *. split; [|apply IH; lia || done].
      exists 0. split; [lia|]. destruct (decide (cdiv (x - m) b' * b' < x - m)) as [Hl|]; [|lia].
      apply cdiv_spec in Hl; [lia|done].
  - cbn [insert list_insert gridS] in *. split; [apply Hq; lia|]. apply IH; try done; lia.
Qed.

Lemma iterate_exactly_once dim p mn mx :
  nested dim (pconf p) -> length mn = dim -> length mx = dim -> Forall2 le mn mx ->
  match pconf p with (b, _) :: _ :: _ => divides_all b (extent mn mx) | _ => True end ->
  let pd := par_dims dim (pconf p) in
  exists ord,
    lists_grid mn mx (final_step (pconf p)) ord /\
    (forall T (f : list nat -> prog T unit) m,
       run (iterate_indices dim p mn mx f) m = run (foldP ord (fun x _ => f x) tt) m) /\
    (forall keys, (forall x, x ∈ ord -> coords pd x ∈ keys) ->
       always (call_log keys pd (iterate_indices dim p mn mx))
              (fun logs => logs = (fun k => filter (fun x => coords pd x = k) ord) <$> keys)) /\
    (forall T (f : list nat -> prog T unit) m m',
       (forall x, x ∈ ord -> drf (f x)) -> independent pd ord f ->
       run (foldP ord (fun x _ => f x) tt) m = Ok (tt, m') ->
       must (fun _ => False) (fun _ m1 => m1 = m') (iterate_indices dim p mn mx f) m).
Proof.
  intros Hn L1 L2 Hle Hd pd. exists (vis (pconf p) mn mx). split_and!.
  - pose proof (vis_lists dim (pconf p) mn mx Hn L1 L2) as Hv.
    by rewrite (bound_exact dim (pconf p) mn mx Hn L1 L2 Hle Hd) in Hv.
  - intros T f m. by apply run_iterate.
  - intros keys Hk. by apply iterate_log.
  - intros T f m m' H1 H2 H3. by apply iterate_any_body.
Qed.
Lemma iterate_rounds_up dim p b bpd c conf mn mx :
  pconf p = (b, bpd) :: c :: conf -> nested dim (pconf p) -> length mn = dim -> length mx = dim ->
  let pd := par_dims dim (pconf p) in
  exists ord,
    lists_grid mn (vadd2 mn (round_up (extent mn mx) b)) (final_step (pconf p)) ord /\
    (forall T (f : list nat -> prog T unit) m,
       run (iterate_indices dim p mn mx f) m = run (foldP ord (fun x _ => f x) tt) m) /\
    (forall keys, (forall x, x ∈ ord -> coords pd x ∈ keys) ->
       always (call_log keys pd (iterate_indices dim p mn mx))
              (fun logs => logs = (fun k => filter (fun x => coords pd x = k) ord) <$> keys)) /\
    (forall d bd m x, Forall2 lt mn mx -> final_step (pconf p) = replicate dim 1 ->
       b !! d = Some bd -> mn !! d = Some m -> mx !! d = Some x -> ~ (bd | x - m) ->
       exists q, q ∈ ord /\ q !! d = Some x).
Proof.
  intros Hp Hn L1 L2 pd. exists (vis (pconf p) mn mx). split_and!.
  - pose proof (vis_lists dim (pconf p) mn mx Hn L1 L2) as Hv. rewrite Hp in Hv |- *. exact Hv.
  - intros T f m. by apply run_iterate.
  - intros keys Hk. by apply iterate_log.
  - intros d bd m x Hlt Hf Hb Hm Hx Hnd. rewrite Hp in Hf, Hn |- *. rewrite final_step_cons in Hf.
    exact (overshoot dim b bpd c conf mn mx d bd m x Hn L1 L2 Hlt Hf Hb Hm Hx Hnd).
Qed.
