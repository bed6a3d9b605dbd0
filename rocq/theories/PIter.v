(** Proofs about the iteration library src/variants/index_iterator.hpp. *)
From Verif Require Import Tools MIter SpecIter.

(** ---- programs that behave alike under sequential execution ---- *)
Section RunEq.
  Context {T : Type}.

  Lemma run_foldP_ext {X} (l : list X) (f g : X -> prog T unit) m :
    (forall x m, x ∈ l -> run (f x) m = run (g x) m) ->
    run (foldP l (fun x _ => f x) tt) m = run (foldP l (fun x _ => g x) tt) m.
  Proof.
    revert m. induction l as [|x l IH]; intros m Hfg; [done|]. cbn [foldP].
    rewrite !run_bind, (Hfg x) by (apply elem_of_cons; by left).
    destruct (run (g x) m) as [[[] m']|]; [|done]. apply IH. intros. apply Hfg, elem_of_cons; by right.
  Qed.
  Lemma run_foldP_app {X} (l1 l2 : list X) (f : X -> prog T unit) m :
    run (foldP (l1 ++ l2) (fun x _ => f x) tt) m =
    match run (foldP l1 (fun x _ => f x) tt) m with
    | Ok (_, m') => run (foldP l2 (fun x _ => f x) tt) m'
    | Fail e => Fail e
    end.
  Proof.
    revert m. induction l1 as [|x l IH]; intros m; [done|]. cbn [foldP app].
    rewrite !run_bind. destruct (run (f x) m) as [[[] m']|]; [|done]. apply IH.
  Qed.
  Lemma run_foldP_bind {X Y} (l : list X) (h : X -> list Y) (f : Y -> prog T unit) m :
    run (foldP (l ≫= h) (fun x _ => f x) tt) m =
    run (foldP l (fun x _ => foldP (h x) (fun y _ => f y) tt) tt) m.
  Proof.
    revert m. induction l as [|x l IH]; intros m; [done|]. rewrite bind_cons, run_foldP_app.
    cbn [foldP]. rewrite run_bind.
    destruct (run (foldP (h x) _ tt) m) as [[[] m']|]; [|done]. apply IH.
  Qed.
  Lemma run_foldP_fmap {X Y} (l : list X) (h : X -> Y) (f : Y -> prog T unit) m :
    run (foldP (h <$> l) (fun x _ => f x) tt) m = run (foldP l (fun x _ => f (h x)) tt) m.
  Proof.
    revert m. induction l as [|x l IH]; intros m; [done|]. cbn [foldP fmap list_fmap].
    rewrite !run_bind. destruct (run (f (h x)) m) as [[[] m']|]; [|done]. apply IH.
  Qed.
  Lemma run_parL {X} (l : list X) (f : X -> prog T unit) m :
    run (parL l f) m = run (foldP l (fun x _ => f x) tt) m.
  Proof.
    revert m. induction l as [|x l IH]; intros m; [done|]. cbn [foldP parL run].
    rewrite run_bind. destruct (run (f x) m) as [[[] m']|]; [|done]. rewrite IH.
    by destruct (run (foldP l _ tt) m') as [[[] ?]|].
  Qed.
  Lemma run_foldP_single {X} (x : X) (f : X -> prog T unit) m :
    run (foldP [x] (fun x _ => f x) tt) m = run (f x) m.
  Proof. cbn [foldP]. rewrite run_bind. by destruct (run (f x) m) as [[[] ?]|]. Qed.
End RunEq.

(** ---- small list computations of the model ---- *)
Lemma foldR_app {S X} (l1 l2 : list X) (f : X -> S -> res S) s :
  foldR (l1 ++ l2) f s = (let? s' := foldR l1 f s in foldR l2 f s').
Proof.
  revert s. induction l1 as [|x l IH]; intros s; [done|]. cbn [foldR app].
  destruct (f x s); [|done]. apply IH.
Qed.
Lemma lget_app {A} (pre : list A) x v d : d = length pre -> lget (pre ++ x :: v) d = Ok x.
Proof. intros ->. unfold lget. by rewrite lookup_app_r, Nat.sub_diag by lia. Qed.
Lemma lat_app {A} (pre : list A) x v d : d = length pre -> lat (pre ++ x :: v) d = Ok x.
Proof. intros ->. unfold lat. by rewrite lookup_app_r, Nat.sub_diag by lia. Qed.
Lemma snoc_app {A} (pre : list A) x v : pre ++ x :: v = (pre ++ [x]) ++ v.
Proof. by rewrite <- app_assoc. Qed.

(** flagged positions *)
Fixpoint flagged (d : nat) (pd : list bool) : list nat :=
  match pd with [] => [] | b :: pd => if b then d :: flagged (S d) pd else flagged (S d) pd end.
(** entries of [mn], with the flagged ones replaced by those of [part] *)
Fixpoint fill (pd : list bool) (part mn : list nat) : list nat :=
  match pd, mn with
  | b :: pd, m :: mn =>
      if b then match part with x :: part => x :: fill pd part mn | [] => m :: fill pd part mn end
      else m :: fill pd part mn
  | _, _ => mn
  end.

Lemma par_map_ok dim pd : length pd = dim -> par_map dim pd = Ok (flagged 0 pd).
Proof.
  intros Hl. unfold par_map.
  cut (forall pd' pre acc, pd = pre ++ pd' ->
    foldR (seq (length pre) (length pd')) (fun d acc =>
      let? b := lat pd d in Ok (if (b : bool) then acc ++ [d] else acc)) acc = Ok (acc ++ flagged (length pre) pd')).
  { intros Hc. specialize (Hc pd [] [] eq_refl). rewrite <- Hl. exact Hc. }
  intros pd'. induction pd' as [|b pd' IH]; intros pre acc He.
  { simpl. by rewrite app_nil_r. }
  cbn [length seq foldR flagged]. subst pd. rewrite lat_app by done. cbn [rbind].
  pose proof (IH (pre ++ [b])) as IH'. rewrite app_length, Nat.add_1_r in IH'.
  rewrite IH' by apply snoc_app. destruct b; [by rewrite <- app_assoc|done].
Qed.

Lemma reduce_dims_ok dim pd v : length pd = dim -> length v = dim -> reduce_dims dim pd v = Ok (coords pd v).
Proof.
  intros Hl Hv. unfold reduce_dims.
  cut (forall pd' v' pre prv acc, pd = pre ++ pd' -> v = prv ++ v' -> length pre = length prv -> length pd' = length v' ->
    foldR (seq (length pre) (length pd')) (fun d acc =>
      let? b := lat pd d in
      if (b : bool) then let? x := lget v d in Ok (acc ++ [x]) else Ok acc) acc = Ok (acc ++ coords pd' v')).
  { intros Hc. specialize (Hc pd v [] [] [] eq_refl eq_refl eq_refl). rewrite <- Hl. apply Hc. lia. }
  intros pd'. induction pd' as [|b pd' IH]; intros v' pre prv acc He Hev Hpp Hlen.
  { simpl. by rewrite app_nil_r. }
  destruct v' as [|x v']; [done|].
  cbn [length seq foldR coords]. pose proof (IH v' (pre ++ [b]) (prv ++ [x])) as IH'.
  rewrite !app_length, !Nat.add_1_r in IH'.
  assert (lat pd (length pre) = Ok b) as -> by (rewrite He; by apply lat_app).
  assert (lget v (length pre) = Ok x) as -> by (rewrite Hev, Hpp; by apply lget_app).
  cbn [rbind]. simpl in Hlen.
  destruct b; cbn [rbind]; rewrite IH'; try (rewrite <- app_assoc; done); try done; lia.
Qed.

Lemma add_block_ok dim cur b : length cur = dim -> length b = dim -> add_block dim cur b = Ok (vadd2 cur b).
Proof.
  intros Hl Hv. unfold add_block.
  cut (forall c' v' pre prv acc, cur = pre ++ c' -> b = prv ++ v' -> length pre = length prv -> length c' = length v' ->
    foldR (seq (length pre) (length c')) (fun d acc =>
      let? c := lget cur d in let? x := lget b d in Ok (acc ++ [c + x])) acc = Ok (acc ++ vadd2 c' v')).
  { intros Hc. specialize (Hc cur b [] [] [] eq_refl eq_refl eq_refl). rewrite <- Hl. apply Hc. lia. }
  intros c'. induction c' as [|c c' IH]; intros v' pre prv acc He Hev Hpp Hlen.
  { simpl. by rewrite app_nil_r. }
  destruct v' as [|x v']; [done|].
  cbn [length seq foldR]. pose proof (IH v' (pre ++ [c]) (prv ++ [x])) as IH'.
  rewrite !app_length, !Nat.add_1_r in IH'.
  assert (lget cur (length pre) = Ok c) as -> by (rewrite He; by apply lget_app).
  assert (lget b (length pre) = Ok x) as -> by (rewrite Hev, Hpp; by apply lget_app).
  cbn [rbind]. simpl in Hlen. rewrite IH'; try done; try lia.
  - rewrite <- app_assoc. done.
  - by rewrite <- app_assoc.
  - by rewrite <- app_assoc.
Qed.

Lemma length_flagged d pd : forall v, length v = length pd -> length (flagged d pd) = length (coords pd v).
Proof.
  revert d. induction pd as [|b pd IH]; intros d [|x v] Hl; try done. simpl in *.
  destruct b; simpl; rewrite (IH (S d) v); lia.
Qed.
Lemma lset_at_app {A} (pre : list A) x y v d : d = length pre -> lset_at (pre ++ x :: v) d y = Ok (pre ++ y :: v).
Proof.
  intros ->. unfold lset_at. rewrite (proj2 (Nat.ltb_lt _ _)).
  - by rewrite insert_app_r_alt, Nat.sub_diag by lia.
  - rewrite app_length. simpl. lia.
Qed.
Lemma map_dims_ok pd part mn :
  length mn = length pd -> length part = length (flagged 0 pd) ->
  map_dims part (flagged 0 pd) mn = Ok (fill pd part mn).
Proof.
  intros Hl Hp. unfold map_dims. rewrite Hp, Nat.eqb_refl. cbn [negb].
  cut (forall pd' part' mn' prm prp prn,
    flagged 0 pd = prm ++ flagged (length prn) pd' -> part = prp ++ part' -> length prm = length prp ->
    length mn' = length pd' -> length part' = length (flagged (length prn) pd') ->
    foldR (seq (length prp) (length part')) (fun i index =>
      let? p := lget (flagged 0 pd) i in
      let? v := lat part i in
      lset_at index p v) (prn ++ mn') = Ok (prn ++ fill pd' part' mn')).
  { intros Hc. specialize (Hc pd part mn [] [] [] eq_refl eq_refl eq_refl Hl Hp).
    rewrite <- Hp. exact Hc. }
  intros pd'. induction pd' as [|b pd' IH]; intros part' mn' prm prp prn Hf He Hpp Hlen Hlp.
  { destruct mn'; [|done]. destruct part'; [|done]. done. }
  destruct mn' as [|m mn']; [done|]. simpl in Hlen. cbn [flagged] in Hf, Hlp. cbn [fill].
  destruct b.
  - destruct part' as [|x part']; [done|]. cbn [length seq foldR]. simpl in Hlp.
    assert (lget (flagged 0 pd) (length prp) = Ok (length prn)) as -> by (rewrite Hf, <- Hpp; by apply lget_app).
    assert (lat part (length prp) = Ok x) as -> by (rewrite He; by apply lat_app).
    cbn [rbind]. rewrite lset_at_app by done. cbn [rbind].
    pose proof (IH part' mn' (prm ++ [length prn]) (prp ++ [x]) (prn ++ [x])) as IH'.
    rewrite !app_length, !Nat.add_1_r in IH'. rewrite <- !app_assoc in IH'. simpl in IH'.
    apply IH'; try done; lia.
  - pose proof (IH part' mn' prm prp (prn ++ [m])) as IH'.
    rewrite !app_length, !Nat.add_1_r in IH'. rewrite <- !app_assoc in IH'. simpl in IH'.
    apply IH'; try done; lia.
Qed.

(** counts of the dimensions whose flag is [which] *)
Fixpoint count_flag (which : bool) (pd : list bool) (mn mx b : list nat) : nat :=
  match pd, mn, mx, b with
  | p :: pd, m :: mn, x :: mx, s :: b =>
      (if bool_decide (p = which) then cdiv (x - m) s else 1) * count_flag which pd mn mx b
  | _, _, _, _ => 1
  end.
Lemma index_count_ok which dim pd mn mx b :
  length pd = dim -> length mn = dim -> length mx = dim -> length b = dim -> positive b ->
  index_count dim which pd mn mx b = Ok (count_flag which pd mn mx b).
Proof.
  intros H1 H2 H3 H4 Hpos. unfold index_count.
  set (body := fun d acc => _).
  cut (forall pd' mn' mx' b' pre prm prx prb acc,
    pd = pre ++ pd' -> mn = prm ++ mn' -> mx = prx ++ mx' -> b = prb ++ b' ->
    length prm = length pre -> length prx = length pre -> length prb = length pre ->
    length mn' = length pd' -> length mx' = length pd' -> length b' = length pd' ->
    foldR (seq (length pre) (length pd')) body acc = Ok (acc * count_flag which pd' mn' mx' b')).
  { intros Hc. specialize (Hc pd mn mx b [] [] [] [] 1 eq_refl eq_refl eq_refl eq_refl eq_refl eq_refl eq_refl).
    rewrite H1 in Hc. rewrite Nat.mul_1_l in Hc. apply Hc; lia. }
  intros pd'. induction pd' as [|p pd' IH]; intros mn' mx' b' pre prm prx prb acc Ep Em Ex Eb L1 L2 L3 L4 L5 L6.
  { simpl. by rewrite Nat.mul_1_r. }
  destruct mn' as [|m mn'], mx' as [|x mx'], b' as [|s b']; try done.
  cbn [length seq foldR count_flag].
  assert (0 < s) as Hs.
  { rewrite Eb in Hpos. unfold positive in Hpos. apply Forall_app in Hpos as [_ Hpos]. by inversion Hpos. }
  assert (body (length pre) acc = Ok (if bool_decide (p = which) then acc * cdiv (x - m) s else acc)) as ->.
  { unfold body.
    assert (lget pd (length pre) = Ok p) as -> by (rewrite Ep; by apply lget_app).
    assert (lget mn (length pre) = Ok m) as -> by (rewrite Em; by apply lget_app).
    assert (lget mx (length pre) = Ok x) as -> by (rewrite Ex; by apply lget_app).
    assert (lget b (length pre) = Ok s) as -> by (rewrite Eb; by apply lget_app).
    cbn [rbind]. unfold block_count. rewrite (proj2 (Nat.eqb_neq s 0)) by lia. done. }
  cbn [rbind]. simpl in *.
  pose proof (IH mn' mx' b' (pre ++ [p]) (prm ++ [m]) (prx ++ [x]) (prb ++ [s])) as IH'.
  rewrite !app_length, !Nat.add_1_r in IH'. rewrite <- !app_assoc in IH'. simpl in IH'.
  rewrite IH'; try done; try lia. f_equal.
  destruct (bool_decide (p = which)); lia.
Qed.

(** ---- dim_index_iterator ---- *)
Fixpoint incr (mn mx st cur : list nat) : option (list nat) :=
  match mn, mx, st, cur with
  | m :: mn, x :: mx, s :: st, c :: cur =>
      if c + s <? x then Some (c + s :: cur)
      else match incr mn mx st cur with Some cur' => Some (m :: cur') | None => None end
  | _, _, _, _ => None
  end.

Lemma lset_app {A} (pre : list A) x y v d : d = length pre -> lset (pre ++ x :: v) d y = Ok (pre ++ y :: v).
Proof.
  intros ->. unfold lset. rewrite (proj2 (Nat.ltb_lt _ _)).
  - by rewrite insert_app_r_alt, Nat.sub_diag by lia.
  - rewrite app_length. simpl. lia.
Qed.
Lemma reset_lower (pm mn' pc cur' : list nat) :
  length pm = length pc ->
  foldR (seq 0 (length pc)) (fun i cur => let? v := lget (pm ++ mn') i in lset cur i v) (pc ++ cur') = Ok (pm ++ cur').
Proof.
  intros Hl.
  cut (forall q1 q2 r1 r2 : list nat, pm = q1 ++ q2 -> length q1 = length r1 -> length q2 = length r2 ->
    foldR (seq (length q1) (length q2)) (fun i cur => let? v := lget (pm ++ mn') i in lset cur i v) (q1 ++ r2 ++ cur')
    = Ok (pm ++ cur')).
  { intros Hc. specialize (Hc [] pm [] pc eq_refl eq_refl Hl). by rewrite <- Hl. }
  intros q1 q2. revert q1. induction q2 as [|v q2 IH]; intros q1 r1 r2 He H1 H2.
  { destruct r2; [|done]. simpl. rewrite He, app_nil_r. done. }
  destruct r2 as [|w r2]; [done|]. cbn [length seq foldR].
  assert (lget (pm ++ mn') (length q1) = Ok v) as -> by (rewrite He, <- app_assoc; by apply lget_app).
  cbn [rbind app]. rewrite lset_app by done. cbn [rbind].
  pose proof (IH (q1 ++ [v]) (r1 ++ [w]) r2) as IH'. rewrite !app_length, !Nat.add_1_r in IH'.
  rewrite <- !app_assoc in IH'. simpl in *. apply IH'; try done; lia.
Qed.
Lemma increment_from_ok pm px ps pc mn mx st cur :
  length pm = length pc -> length px = length pc -> length ps = length pc ->
  length mx = length mn -> length st = length mn -> length cur = length mn ->
  increment_from (length mn) (length pc) (pm ++ mn) (px ++ mx) (ps ++ st) (pc ++ cur) =
  Ok (match incr mn mx st cur with Some c => pm ++ c | None => pc ++ cur end).
Proof.
  revert pm px ps pc mx st cur. induction mn as [|m mn IH]; intros pm px ps pc mx st cur L1 L2 L3 L4 L5 L6.
  { by destruct cur. }
  destruct mx as [|x mx], st as [|s st], cur as [|c cur]; try done.
  cbn [length increment_from incr].
  rewrite (lget_app pc c), (lget_app ps s), (lget_app px x) by done. cbn [rbind].
  destruct (c + s <? x) eqn:Hc.
  - rewrite lset_app by done. cbn [rbind]. by apply reset_lower.
  - pose proof (IH (pm ++ [m]) (px ++ [x]) (ps ++ [s]) (pc ++ [c]) mx st cur) as IH'.
    rewrite !app_length, !Nat.add_1_r in IH'. rewrite <- !app_assoc in IH'. simpl in *.
    rewrite IH' by lia. by destruct (incr mn mx st cur); rewrite <- ?app_assoc.
Qed.
Lemma dim_increment_ok mn mx st cur :
  length mx = length mn -> length st = length mn -> length cur = length mn ->
  dim_increment mn mx st cur = Ok (default cur (incr mn mx st cur)).
Proof.
  intros. pose proof (increment_from_ok [] [] [] [] mn mx st cur) as Hi. simpl in Hi.
  unfold dim_increment. rewrite Hi by done. by destruct (incr mn mx st cur).
Qed.

Lemma dim_index_iterator_ok mn mx st : length mx = length mn -> length st = length mn -> dim_index_iterator mn mx st = Ok mn.
Proof. intros E1 E2. unfold dim_index_iterator. by rewrite E1, E2, !Nat.eqb_refl. Qed.

(** Number of different values per dimension (a dimension with an empty range
    keeps its start value). *)
Definition ecount (m x s : nat) : nat := Nat.max 1 (cdiv (x - m) s).
Fixpoint ecounts (mn mx st : list nat) : list nat :=
  match mn, mx, st with
  | m :: mn, x :: mx, s :: st => ecount m x s :: ecounts mn mx st
  | _, _, _ => []
  end.
Fixpoint at_dig (mn st ds : list nat) : list nat :=
  match mn, st, ds with
  | m :: mn, s :: st, d :: ds => m + d * s :: at_dig mn st ds
  | _, _, _ => []
  end.
Lemma at_digits_dig mn st ds : at_digits mn st ds = at_dig mn st ds.
Proof.
  unfold at_digits. revert st ds. induction mn as [|m mn IH]; intros [|s st] [|d ds]; try done.
  simpl. f_equal. apply IH.
Qed.
Definition gpoint (mn mx st : list nat) (k : nat) : list nat := at_dig mn st (digits (ecounts mn mx st) k).

Lemma ecount_step m x s d : 0 < s -> d < ecount m x s -> (m + d * s + s < x <-> S d < ecount m x s).
Proof.
  intros Hs Hd. unfold ecount in *. pose proof (cdiv_spec (x - m) s (S d) Hs) as Hc.
  split; intros Hx.
  - assert (S d < cdiv (x - m) s) by (apply Hc; lia). lia.
  - assert (S d < cdiv (x - m) s) as Hlt by lia. apply Hc in Hlt. lia.
Qed.
Lemma prodl_cons c cs : prodl (c :: cs) = c * prodl cs.
Proof. done. Qed.
Lemma ecounts_pos mn mx st : Forall (fun c => 0 < c) (ecounts mn mx st).
Proof.
  revert mx st. induction mn as [|m mn IH]; intros [|x mx] [|s st]; simpl; try by constructor.
  constructor; [unfold ecount; lia|apply IH].
Qed.
Lemma prodl_pos cs : Forall (fun c => 0 < c) cs -> 0 < prodl cs.
Proof. induction 1 as [|c cs Hc _ IH]; [simpl; lia|]. rewrite prodl_cons. apply Nat.mul_pos_pos; done. Qed.

Lemma incr_gpoint mn mx st k :
  length mx = length mn -> length st = length mn -> positive st -> k < prodl (ecounts mn mx st) ->
  incr mn mx st (gpoint mn mx st k) =
  if S k <? prodl (ecounts mn mx st) then Some (gpoint mn mx st (S k)) else None.
Proof.
  unfold gpoint. revert mx st k. induction mn as [|m mn IH]; intros [|x mx] [|s st] k L1 L2 Hpos Hk; try done.
  cbn [ecounts digits at_dig incr]. cbn [ecounts] in Hk. rewrite prodl_cons in Hk. rewrite prodl_cons.
  inversion Hpos as [|? ? Hs Hpos']; subst. set (c := ecount m x s) in *. set (P := prodl (ecounts mn mx st)) in *.
  assert (0 < c) as Hc by (unfold c, ecount; lia).
  assert (0 < P) as HP by (apply prodl_pos, ecounts_pos).
  pose proof (Nat.mod_upper_bound k c ltac:(lia)) as Hm.
  pose proof (Nat.div_mod k c ltac:(lia)) as Hdm.
  assert (k / c < P) as Hq by (apply Nat.div_lt_upper_bound; lia).
  pose proof (ecount_step m x s (k mod c) Hs Hm) as Hst. fold c in Hst.
  simpl in L1, L2. specialize (IH mx st (k / c) ltac:(lia) ltac:(lia) Hpos' Hq). fold P in IH.
  destruct (m + k mod c * s + s <? x) eqn:E.
  - apply Nat.ltb_lt in E. apply Hst in E.
    assert (S k mod c = S (k mod c) /\ S k / c = k / c) as [Em Ed].
    { pose proof (Nat.div_unique (S k) c (k / c) (S (k mod c)) E ltac:(lia)).
      pose proof (Nat.mod_unique (S k) c (k / c) (S (k mod c)) E ltac:(lia)). lia. }
    rewrite Em, Ed. rewrite (proj2 (Nat.ltb_lt _ _)).
    + f_equal. f_equal. lia.
    + assert (S (k / c) * c <= P * c) by (apply Nat.mul_le_mono_r; lia). simpl in *. nia.
  - apply Nat.ltb_ge in E. assert (S (k mod c) = c) as Ec by (destruct (decide (S (k mod c) < c)) as [Hl|]; [apply Hst in Hl|]; lia).
    assert (S k mod c = 0 /\ S k / c = S (k / c)) as [Em Ed].
    { pose proof (Nat.div_unique (S k) c (S (k / c)) 0 ltac:(lia) ltac:(nia)).
      pose proof (Nat.mod_unique (S k) c (S (k / c)) 0 ltac:(lia) ltac:(nia)). lia. }
    rewrite IH, Em, Ed. destruct (S (k / c) <? P) eqn:E2.
    + apply Nat.ltb_lt in E2. rewrite (proj2 (Nat.ltb_lt _ _)); [f_equal; f_equal; lia|].
      assert (S (S (k / c)) * c <= P * c) by (apply Nat.mul_le_mono_r; lia). simpl in *. nia.
    + apply Nat.ltb_ge in E2. rewrite (proj2 (Nat.ltb_ge _ _)); [done|].
      assert (P * c <= S (k / c) * c) by (apply Nat.mul_le_mono_r; lia). simpl in *. nia.
Qed.

Lemma length_gpoint mn mx st k : length mx = length mn -> length st = length mn -> length (gpoint mn mx st k) = length mn.
Proof.
  unfold gpoint. revert mx st k. induction mn as [|m mn IH]; intros [|x mx] [|s st] k L1 L2; try done.
  simpl in *. f_equal. apply IH; lia.
Qed.
Lemma gpoint_0 mn mx st : length mx = length mn -> length st = length mn -> gpoint mn mx st 0 = mn.
Proof.
  unfold gpoint. revert mx st. induction mn as [|m mn IH]; intros [|x mx] [|s st] L1 L2; try done.
  cbn [ecounts digits at_dig]. rewrite Nat.mod_0_l, Nat.div_0_l by (unfold ecount; lia).
  simpl in *. f_equal; [lia|]. apply IH; lia.
Qed.

Lemma dim_increment_gpoint mn mx st k :
  length mx = length mn -> length st = length mn -> positive st ->
  let n := prodl (ecounts mn mx st) in
  dim_increment mn mx st (gpoint mn mx st (Nat.min k (n - 1))) = Ok (gpoint mn mx st (Nat.min (S k) (n - 1))).
Proof.
  intros L1 L2 Hpos n. assert (0 < n) by (apply prodl_pos, ecounts_pos).
  rewrite dim_increment_ok by (rewrite ?length_gpoint; done).
  rewrite incr_gpoint by (fold n; lia || done). fold n.
  destruct (S (k `min` (n - 1)) <? n) eqn:E.
  - apply Nat.ltb_lt in E. cbn [default id from_option]. f_equal. f_equal. lia.
  - apply Nat.ltb_ge in E. cbn [default id from_option]. f_equal. f_equal. lia.
Qed.
Lemma iterates_gpoint mn mx st n k :
  length mx = length mn -> length st = length mn -> positive st ->
  let N := prodl (ecounts mn mx st) in
  iterates n mn mx st (gpoint mn mx st (Nat.min k (N - 1))) =
  Ok ((fun i => gpoint mn mx st (Nat.min i (N - 1))) <$> seq k n).
Proof.
  intros L1 L2 Hpos N. revert k. induction n as [|n IH]; intros k; [done|].
  cbn [iterates seq fmap list_fmap]. pose proof (dim_increment_gpoint mn mx st k L1 L2 Hpos) as Hd; cbv zeta in Hd; fold N in Hd; rewrite Hd.
  cbn [rbind]. by rewrite IH.
Qed.
Lemma iterates_ok mn mx st n :
  length mx = length mn -> length st = length mn -> positive st -> n <= prodl (ecounts mn mx st) ->
  iterates n mn mx st mn = Ok (gpoint mn mx st <$> seq 0 n).
Proof.
  intros L1 L2 Hpos Hn. pose proof (iterates_gpoint mn mx st n 0 L1 L2 Hpos) as Hi. simpl in Hi.
  rewrite gpoint_0 in Hi by done. rewrite Hi. f_equal. apply list_fmap_ext.
  intros i x Hx. apply lookup_seq in Hx. f_equal. lia.
Qed.

(** The grid as a structural predicate. *)
Fixpoint gridS (mn mx st p : list nat) : Prop :=
  match mn, mx, st, p with
  | m :: mn, x :: mx, s :: st, c :: p => (exists q, c = m + q * s /\ c < x) /\ gridS mn mx st p
  | [], [], [], [] => True
  | _, _, _, _ => False
  end.
Lemma gridS_spec mn mx st p :
  length mx = length mn -> length st = length mn -> gridS mn mx st p <-> grid_pt mn mx st p.
Proof.
  revert mx st p. induction mn as [|m mn IH]; intros [|x mx] [|s st] p L1 L2; try done.
  - destruct p; simpl; [|split; [done|by intros [? _]]]. split; [|done]. intros _. split; [done|]. simpl. lia.
  - destruct p as [|c p]; simpl; [split; [done|by intros [? _]]|].
    simpl in *. rewrite IH by lia. split.
    + intros [(q&->&Hc) [Hl Hg]]. split; [simpl; lia|]. intros [|d] Hd; [|simpl in *; apply Hg; lia].
      exists m, x, s, q. split_and!; try done.
    + intros [Hl Hg]. split.
      * destruct (Hg 0) as (m'&x'&s'&q&[= <-]&[= <-]&[= <-]&[= ->]&Hx); [simpl; lia|]. by exists q.
      * split; [simpl in *; lia|]. intros d Hd. apply (Hg (S d)). simpl. lia.
Qed.

(** The values of the first [prodl ecounts] increments: NoDup and membership.
    [eff] is the value set of one dimension. *)
Definition eff (m x s c : nat) : Prop := exists q, c = m + q * s /\ q < ecount m x s.
Fixpoint effS (mn mx st p : list nat) : Prop :=
  match mn, mx, st, p with
  | m :: mn, x :: mx, s :: st, c :: p => eff m x s c /\ effS mn mx st p
  | [], [], [], [] => True
  | _, _, _, _ => False
  end.
Lemma eff_grid m x s c : 0 < s -> m < x -> eff m x s c <-> exists q, c = m + q * s /\ c < x.
Proof.
  intros Hs Hm. unfold eff, ecount. split; intros (q&->&Hq); exists q; (split; [done|]).
  - assert (q < cdiv (x - m) s \/ q = 0) as [Hl| ->] by lia; [|lia]. apply cdiv_spec in Hl; lia.
  - assert (q < cdiv (x - m) s) by (apply cdiv_spec; lia). lia.
Qed.
Lemma gpoint_elem mn mx st p :
  length mx = length mn -> length st = length mn -> positive st ->
  p ∈ gpoint mn mx st <$> seq 0 (prodl (ecounts mn mx st)) <-> effS mn mx st p.
Proof.
  intros L1 L2 Hpos. rewrite elem_of_list_fmap. setoid_rewrite elem_of_seq. unfold gpoint.
  revert mx st p L1 L2 Hpos. induction mn as [|m mn IH]; intros [|x mx] [|s st] p L1 L2 Hpos; try done.
  - destruct p; simpl; split; try done.
    + intros _. exists 0. split; [done|lia].
    + by intros (?&?&?).
  - inversion Hpos as [|? ? Hs Hpos']; subst. cbn [ecounts digits at_dig]. rewrite prodl_cons.
    set (c := ecount m x s). set (P := prodl (ecounts mn mx st)).
    assert (0 < c) by (unfold c, ecount; lia).
    simpl in L1, L2. destruct p as [|y p]; [split; [by intros (?&?&?)|done]|].
    cbn [effS]. rewrite <- IH by (done || lia). split.
    + intros (k&[= -> ->]&Hk). split.
      * exists (k mod c). split; [done|]. apply Nat.mod_upper_bound. lia.
      * exists (k / c). split; [done|]. fold P. split; [lia|]. apply Nat.div_lt_upper_bound; lia.
    + intros [(q&->&Hq) (k&->&Hk)]. fold c in Hq. fold P in Hk. exists (q + k * c).
      rewrite Nat.mod_add, Nat.div_add, Nat.mod_small, (Nat.div_small q) by lia. split; [done|].
      split; [lia|]. assert (S k * c <= P * c) by (apply Nat.mul_le_mono_r; lia). simpl in *. lia.
Qed.
Lemma gpoint_inj mn mx st k k' :
  length mx = length mn -> length st = length mn -> positive st ->
  k < prodl (ecounts mn mx st) -> k' < prodl (ecounts mn mx st) ->
  gpoint mn mx st k = gpoint mn mx st k' -> k = k'.
Proof.
  unfold gpoint. revert mx st k k'. induction mn as [|m mn IH]; intros [|x mx] [|s st] k k' L1 L2 Hpos Hk Hk' He; try done.
  - simpl in *. lia.
  - inversion Hpos as [|? ? Hs Hpos']; subst. cbn [ecounts digits at_dig] in *. rewrite prodl_cons in Hk, Hk'.
    set (c := ecount m x s) in *. set (P := prodl (ecounts mn mx st)) in *.
    assert (0 < c) by (unfold c, ecount; lia).
    injection He as He1 He2.
    assert (k mod c = k' mod c) by nia.
    assert (k / c = k' / c).
    { apply (IH mx st); simpl in *; try lia; try done; fold P; apply Nat.div_lt_upper_bound; lia. }
    rewrite (Nat.div_mod k c), (Nat.div_mod k' c) by lia. congruence.
Qed.
Lemma gpoint_NoDup mn mx st n :
  length mx = length mn -> length st = length mn -> positive st -> n <= prodl (ecounts mn mx st) ->
  NoDup (gpoint mn mx st <$> seq 0 n).
Proof.
  intros L1 L2 Hpos Hn. apply NoDup_fmap_2_strong; [|apply NoDup_seq].
  intros k k' Hk Hk' He. apply elem_of_seq in Hk, Hk'. eapply gpoint_inj; [..|exact He]; try done; lia.
Qed.

(** ---- loop_nest ---- *)
Fixpoint lexg (mn mx st : list nat) : list (list nat) :=
  match mn, mx, st with
  | m :: mn, x :: mx, s :: st => rng m x s ≫= fun c => cons c <$> lexg mn mx st
  | _, _, _ => [[]]
  end.
Lemma lexg_elem mn mx st p :
  length mx = length mn -> length st = length mn -> positive st -> p ∈ lexg mn mx st <-> gridS mn mx st p.
Proof.
  revert mx st p. induction mn as [|m mn IH]; intros [|x mx] [|s st] p L1 L2 Hpos; try done.
  - simpl. rewrite elem_of_list_singleton. by destruct p.
  - inversion Hpos as [|? ? Hs Hpos']; subst. simpl in L1, L2. cbn [lexg]. rewrite elem_of_list_bind. split.
    + intros (c&Hp&Hc). apply elem_of_list_fmap in Hp as (p'&->&Hp). apply IH in Hp; [|lia|lia|done].
      apply elem_of_rng in Hc as (q&->&Hq); [|done]. simpl. split; [by exists q|done].
    + destruct p as [|c p]; [done|]. intros [(q&->&Hq) Hp]. exists (m + q * s). split.
      * apply elem_of_list_fmap. exists p. split; [done|]. apply IH; [lia|lia|done|done].
      * apply elem_of_rng; [done|]. by exists q.
Qed.
Lemma NoDup_bind {X Y} (l : list X) (g : X -> list Y) :
  NoDup l -> (forall x, x ∈ l -> NoDup (g x)) ->
  (forall x x' y, x ∈ l -> x' ∈ l -> y ∈ g x -> y ∈ g x' -> x = x') -> NoDup (l ≫= g).
Proof.
  induction 1 as [|x l Hx Hl IH]; intros Hg Hd; [constructor|]. rewrite bind_cons. apply NoDup_app. split_and!.
  - apply Hg, elem_of_cons. by left.
  - intros y Hy (x'&Hy'&Hx')%elem_of_list_bind. apply Hx.
    rewrite (Hd x x' y); try done; apply elem_of_cons; auto.
  - apply IH; [intros; apply Hg, elem_of_cons; by right|].
    intros a b y Ha Hb. apply Hd; apply elem_of_cons; by right.
Qed.
Lemma lexg_NoDup mn mx st : positive st -> NoDup (lexg mn mx st).
Proof.
  revert mx st. induction mn as [|m mn IH]; intros [|x mx] [|s st] Hpos; try apply NoDup_singleton.
  inversion Hpos as [|? ? Hs Hpos']; subst. cbn [lexg]. apply NoDup_bind.
  - by apply NoDup_rng.
  - intros c Hc. apply NoDup_fmap_2; [by intros ? ? [=]|by apply IH].
  - intros c c' y _ _ (p&->&_)%elem_of_list_fmap (p'&[= ->]&_)%elem_of_list_fmap. done.
Qed.

Section Nest.
  Context {T : Type}.
  Lemma run_execute_looped (f : list nat -> prog T unit) pm px ps mn mx st args m :
    length pm = length args -> length px = length args -> length ps = length args ->
    length mx = length mn -> length st = length mn -> positive st ->
    run (execute_looped (length mn) (length args) (pm ++ mn) (px ++ mx) (ps ++ st) f args) m =
    run (foldP (lexg mn mx st) (fun p _ => f (args ++ p)) tt) m.
  Proof.
    revert pm px ps mx st args m. induction mn as [|lo mn IH]; intros pm px ps [|hi mx] [|s st] args m L1 L2 L3 L4 L5 Hpos; try done.
    - cbn [length execute_looped lexg]. rewrite (run_foldP_single [] (fun p => f (args ++ p))). by rewrite app_nil_r.
    - inversion Hpos as [|? ? Hs Hpos']; subst. simpl in L4, L5.
      cbn [length execute_looped lexg]. rewrite (lget_app pm lo), (lget_app px hi), (lget_app ps s) by done.
      cbn [ofres pbind]. unfold forP. rewrite forS_step by done.
      rewrite (run_foldP_bind (rng lo hi s) (fun c => cons c <$> lexg mn mx st) (fun p => f (args ++ p))).
      apply run_foldP_ext. intros c m' Hc.
      rewrite (run_foldP_fmap (lexg mn mx st) (cons c) (fun p => f (args ++ p))).
      pose proof (IH (pm ++ [lo]) (px ++ [hi]) (ps ++ [s]) mx st (args ++ [c]) m') as IH'.
      rewrite !app_length, !Nat.add_1_r in IH'. rewrite <- !app_assoc in IH'. simpl in IH'.
      rewrite IH' by (done || lia). apply run_foldP_ext. intros p m'' _. by rewrite <- app_assoc.
  Qed.
  Lemma run_loop_nest dim (f : list nat -> prog T unit) mn mx st m :
    length mn = dim -> length mx = dim -> length st = dim -> positive st ->
    run (loop_nest dim mn mx st f) m = run (foldP (lexg mn mx st) (fun p _ => f p) tt) m.
  Proof. intros <- L1 L2 Hpos. exact (run_execute_looped f [] [] [] mn mx st [] m eq_refl eq_refl eq_refl L1 L2 Hpos). Qed.

  Lemma execute_looped_all (Q : prog T unit -> Prop) (f : list nat -> prog T unit) pm px ps mn mx st args :
    length pm = length args -> length px = length args -> length ps = length args ->
    length mx = length mn -> length st = length mn -> positive st ->
    (forall lo hi s body, 0 < s -> (forall c, c ∈ rng lo hi s -> Q (body c)) -> Q (forP lo hi s body)) ->
    (forall p, p ∈ lexg mn mx st -> Q (f (args ++ p))) ->
    Q (execute_looped (length mn) (length args) (pm ++ mn) (px ++ mx) (ps ++ st) f args).
  Proof.
    intros L1 L2 L3 L4 L5 Hpos Hfor. revert pm px ps mx st args L1 L2 L3 L4 L5 Hpos.
    induction mn as [|lo mn IH]; intros pm px ps [|hi mx] [|s st] args L1 L2 L3 L4 L5 Hpos Hf; try done.
    - cbn [length execute_looped]. specialize (Hf []). rewrite app_nil_r in Hf. apply Hf. simpl. by apply elem_of_list_singleton.
    - inversion Hpos as [|? ? Hs Hpos']; subst. simpl in L4, L5.
      cbn [length execute_looped]. rewrite (lget_app pm lo), (lget_app px hi), (lget_app ps s) by done.
      cbn [ofres pbind]. apply Hfor; [done|]. intros c Hc.
      pose proof (IH (pm ++ [lo]) (px ++ [hi]) (ps ++ [s]) mx st (args ++ [c])) as IH'.
      rewrite !app_length, !Nat.add_1_r in IH'. rewrite <- !app_assoc in IH'. simpl in IH'.
      apply IH'; try done; try lia. intros p Hp. rewrite <- app_assoc. apply Hf. cbn [lexg].
      apply elem_of_list_bind. exists c. split; [|done]. apply elem_of_list_fmap. by exists p.
  Qed.
  Lemma acc_in_loop_nest (R W : loc -> Prop) dim (f : list nat -> prog T unit) mn mx st :
    length mn = dim -> length mx = dim -> length st = dim -> positive st ->
    (forall p, p ∈ lexg mn mx st -> acc_in R W (f p)) -> acc_in R W (loop_nest dim mn mx st f).
  Proof.
    intros <- L1 L2 Hpos Hf. refine (execute_looped_all (acc_in R W) f [] [] [] mn mx st [] _ _ _ _ _ _ _ _); try done.
    intros lo hi s body Hs Hb. unfold forP. rewrite forS_step by done. apply acc_in_foldP. intros c [] Hc. by apply Hb.
  Qed.
  Lemma drf_loop_nest dim (f : list nat -> prog T unit) mn mx st :
    length mn = dim -> length mx = dim -> length st = dim -> positive st ->
    (forall p, p ∈ lexg mn mx st -> drf (f p)) -> drf (loop_nest dim mn mx st f).
  Proof.
    intros <- L1 L2 Hpos Hf. refine (execute_looped_all drf f [] [] [] mn mx st [] _ _ _ _ _ _ _ _); try done.
    intros lo hi s body Hs Hb. unfold forP. rewrite forS_step by done. apply drf_foldP. intros c [] Hc. by apply Hb.
  Qed.
End Nest.

(** ---- block corners of one blocking level ---- *)
Fixpoint gridF (pd : list bool) (mn mx st p : list nat) : Prop :=
  match pd, mn, mx, st, p with
  | b :: pd, m :: mn, x :: mx, s :: st, c :: p =>
      (b = false -> exists q, c = m + q * s /\ c < x) /\ gridF pd mn mx st p
  | [], [], [], [], [] => True
  | _, _, _, _, _ => False
  end.
Lemma gridS_split pd mn mx st p :
  length mn = length pd -> length mx = length pd -> length st = length pd ->
  gridS mn mx st p <-> gridS (coords pd mn) (coords pd mx) (coords pd st) (coords pd p) /\ gridF pd mn mx st p.
Proof.
  revert mn mx st p. induction pd as [|b pd IH]; intros [|m mn] [|x mx] [|s st] p L1 L2 L3; try done.
  - simpl. destruct p; [naive_solver|]. split; [done|by intros []].
  - destruct p as [|c p].
    { simpl. split; [done|by intros []]. }
    simpl in *. specialize (IH mn mx st p ltac:(lia) ltac:(lia) ltac:(lia)). destruct b; simpl; naive_solver.
Qed.
Lemma length_coords pd v : forall w, length v = length pd -> length w = length pd -> length (coords pd v) = length (coords pd w).
Proof.
  revert v. induction pd as [|b pd IH]; intros [|x v] [|y w] H1 H2; try done. simpl in *.
  destruct b; simpl; rewrite (IH v w); lia.
Qed.
Lemma coords_positive pd b : positive b -> positive (coords pd b).
Proof.
  revert b. induction pd as [|p pd IH]; intros [|x b] Hb; try by constructor. inversion Hb; subst.
  simpl. destruct p; [constructor; [done|]|]; by apply IH.
Qed.
Lemma length_fill pd part mn : length mn = length pd -> length (fill pd part mn) = length pd.
Proof.
  revert part mn. induction pd as [|b pd IH]; intros part [|m mn] Hl; try done. simpl in *.
  destruct b; [destruct part|]; simpl; rewrite IH; lia.
Qed.

Definition partials (pd : list bool) (mn mx b : list nat) : list (list nat) :=
  gpoint (coords pd mn) (coords pd mx) (coords pd b) <$> seq 0 (count_flag true pd mn mx b).
Definition curs (pd : list bool) (part mn mx b : list nat) : list (list nat) :=
  gpoint (fill pd part mn) (fill pd part mx) b <$> seq 0 (count_flag false pd mn mx b).

Lemma cdiv_0 n b : 0 < b -> cdiv n b = 0 -> n = 0.
Proof. intros Hb Hc. destruct n as [|n]; [done|]. assert (0 < cdiv (S n) b) by (apply cdiv_spec; lia). lia. Qed.
Lemma cdiv_pos n b : 0 < b -> 0 < n -> 0 < cdiv n b.
Proof. intros Hb Hn. apply cdiv_spec; lia. Qed.

Lemma count_true pd mn mx b :
  length mn = length pd -> length mx = length pd -> length b = length pd ->
  count_flag true pd mn mx b = 0 \/
  count_flag true pd mn mx b = prodl (ecounts (coords pd mn) (coords pd mx) (coords pd b)) .
Proof.
  revert mn mx b. induction pd as [|p pd IH]; intros [|m mn] [|x mx] [|s b] L1 L2 L3; try done; [by right|].
  simpl in L1, L2, L3. specialize (IH mn mx b ltac:(lia) ltac:(lia) ltac:(lia)).
  cbn [count_flag coords]. destruct p; [|rewrite bool_decide_eq_false_2 by done; rewrite Nat.mul_1_l; done].
  rewrite bool_decide_eq_true_2 by done. cbn [ecounts]. rewrite prodl_cons. unfold ecount.
  destruct (cdiv (x - m) s) as [|c]; [by left|]. destruct IH as [-> | ->]; [left; lia|right]. f_equal.
Qed.
Lemma count_false pd part mn mx b :
  length mn = length pd -> length mx = length pd -> length b = length pd -> length part = length (flagged 0 pd) ->
  positive b ->
  count_flag false pd mn mx b = 0 \/
  count_flag false pd mn mx b = prodl (ecounts (fill pd part mn) (fill pd part mx) b).
Proof.
  generalize 0 at 1. revert part mn mx b.
  induction pd as [|p pd IH]; intros part [|m mn] [|x mx] [|s b] n L1 L2 L3 L4 Hpos; try done; [by right|].
  inversion Hpos as [|? ? Hs Hpos']; subst.
  simpl in L1, L2, L3. cbn [count_flag fill]. cbn [flagged] in L4. destruct p.
  - rewrite bool_decide_eq_false_2 by done. rewrite Nat.mul_1_l. destruct part as [|y part]; [done|].
    simpl in L4. cbn [ecounts]. rewrite prodl_cons. unfold ecount. rewrite Nat.sub_diag.
    assert (cdiv 0 s = 0) as -> by (unfold cdiv; apply Nat.div_small; lia).
    cbn [Nat.max]. rewrite Nat.mul_1_l. apply (IH part mn mx b (S n)); lia || done.
  - specialize (IH part mn mx b (S n) ltac:(lia) ltac:(lia) ltac:(lia) L4 Hpos').
    rewrite bool_decide_eq_true_2 by done. cbn [ecounts]. rewrite prodl_cons. unfold ecount.
    destruct (cdiv (x - m) s) as [|c]; [by left|]. destruct IH as [-> | ->]; [left; lia|right]. f_equal.
Qed.

Lemma count_true_0 pd mn mx b p :
  length mn = length pd -> length mx = length pd -> length b = length pd -> positive b ->
  count_flag true pd mn mx b = 0 -> ~ gridS (coords pd mn) (coords pd mx) (coords pd b) p.
Proof.
  revert mn mx b p. induction pd as [|f pd IH]; intros [|m mn] [|x mx] [|s b] p L1 L2 L3 Hpos; try done.
  inversion Hpos as [|? ? Hs Hpos']; subst. simpl in L1, L2, L3. cbn [count_flag coords]. destruct f.
  - rewrite bool_decide_eq_true_2 by done. intros [Hz|Hz]%Nat.eq_mul_0 Hg.
    + apply cdiv_0 in Hz; [|done]. destruct p as [|c p]; [done|]. destruct Hg as [(q&->&Hx) _]. lia.
    + destruct p as [|c p]; [done|]. destruct Hg as [_ Hg]. eapply IH; [| | | |exact Hz|exact Hg]; lia || done.
  - rewrite bool_decide_eq_false_2 by done. rewrite Nat.mul_1_l. intros Hz. apply IH; lia || done.
Qed.
Lemma count_false_0 pd mn mx b p :
  length mn = length pd -> length mx = length pd -> length b = length pd -> positive b ->
  count_flag false pd mn mx b = 0 -> ~ gridF pd mn mx b p.
Proof.
  revert mn mx b p. induction pd as [|f pd IH]; intros [|m mn] [|x mx] [|s b] p L1 L2 L3 Hpos; try done.
  inversion Hpos as [|? ? Hs Hpos']; subst. simpl in L1, L2, L3. cbn [count_flag].
  destruct p as [|c p]; [by intros ? []|]. cbn [gridF]. intros Hz [Hc Hg]. destruct f.
  - rewrite bool_decide_eq_false_2 in Hz by done. rewrite Nat.mul_1_l in Hz. eapply IH; [| | | |exact Hz|exact Hg]; lia || done.
  - rewrite bool_decide_eq_true_2 in Hz by done. apply Nat.eq_mul_0 in Hz as [Hz|Hz].
    + apply cdiv_0 in Hz; [|done]. destruct (Hc eq_refl) as (q&->&Hx). lia.
    + eapply IH; [| | | |exact Hz|exact Hg]; lia || done.
Qed.

Lemma count_true_pos pd mn mx b p :
  length mn = length pd -> length mx = length pd -> length b = length pd -> positive b ->
  count_flag true pd mn mx b <> 0 ->
  effS (coords pd mn) (coords pd mx) (coords pd b) p <-> gridS (coords pd mn) (coords pd mx) (coords pd b) p.
Proof.
  revert mn mx b p. induction pd as [|f pd IH]; intros [|m mn] [|x mx] [|s b] p L1 L2 L3 Hpos; try done.
  inversion Hpos as [|? ? Hs Hpos']; subst. simpl in L1, L2, L3. cbn [count_flag coords]. destruct f.
  - rewrite bool_decide_eq_true_2 by done. intros Hnz. destruct p as [|c p]; [done|]. cbn [effS gridS].
    assert (cdiv (x - m) s <> 0 /\ count_flag true pd mn mx b <> 0) as [Hc Hz] by (split; intros E; rewrite E in Hnz; lia).
    rewrite IH by (lia || done). rewrite eff_grid; [done|done|].
    destruct (decide (m < x)); [done|]. exfalso. apply Hc. unfold cdiv. apply Nat.div_small. lia.
  - rewrite bool_decide_eq_false_2 by done. rewrite Nat.mul_1_l. intros Hz. apply IH; lia || done.
Qed.
Lemma count_false_pos pd part mn mx b p :
  length mn = length pd -> length mx = length pd -> length b = length pd -> length part = length (flagged 0 pd) ->
  positive b -> count_flag false pd mn mx b <> 0 ->
  effS (fill pd part mn) (fill pd part mx) b p <-> coords pd p = part /\ gridF pd mn mx b p.
Proof.
  generalize 0 at 1. revert part mn mx b p.
  induction pd as [|f pd IH]; intros part [|m mn] [|x mx] [|s b] p n L1 L2 L3 L4 Hpos; try done.
  { destruct part; [|done]. intros _. destruct p; simpl; naive_solver. }
  inversion Hpos as [|? ? Hs Hpos']; subst.
  simpl in L1, L2, L3. cbn [count_flag fill]. cbn [flagged] in L4. destruct f.
  - rewrite bool_decide_eq_false_2 by done. rewrite Nat.mul_1_l. destruct part as [|y part]; [done|].
    simpl in L4. intros Hz. destruct p as [|c p]; [simpl; split; [done|by intros [? ?]]|].
    cbn [effS coords gridF]. rewrite (IH part mn mx b p (S n)) by (lia || done).
    assert (eff y y s c <-> c = y) as ->.
    { unfold eff, ecount. rewrite Nat.sub_diag. assert (cdiv 0 s = 0) as -> by (unfold cdiv; apply Nat.div_small; lia).
      split; [intros (q&->&Hq); replace q with 0 by (simpl in Hq; lia); lia|].
      intros ->. exists 0. split; [lia|simpl; lia]. }
    split; [intros (->&<-&?)|intros ([= -> <-]&_&?)]; done.
  - rewrite bool_decide_eq_true_2 by done. intros Hnz.
    assert (cdiv (x - m) s <> 0 /\ count_flag false pd mn mx b <> 0) as [Hc Hz] by (split; intros E; rewrite E in Hnz; lia).
    destruct p as [|c p]; [simpl; split; [done|by intros [? ?]]|]. cbn [effS coords gridF].
    rewrite (IH part mn mx b p (S n)) by (lia || done). rewrite eff_grid; [naive_solver|done|].
    destruct (decide (m < x)); [done|]. exfalso. apply Hc. unfold cdiv. apply Nat.div_small. lia.
Qed.

Section Level.
  Context (pd : list bool) (mn mx b : list nat).
  Context (L1 : length mn = length pd) (L2 : length mx = length pd) (L3 : length b = length pd) (Hpos : positive b).

  Lemma lc1 : length (coords pd mx) = length (coords pd mn).
  Proof. by apply length_coords. Qed.
  Lemma lc2 : length (coords pd b) = length (coords pd mn).
  Proof. by apply length_coords. Qed.
  Lemma partials_elem part : part ∈ partials pd mn mx b <-> gridS (coords pd mn) (coords pd mx) (coords pd b) part.
  Proof.
    unfold partials. destruct (decide (count_flag true pd mn mx b = 0)) as [Hz|Hnz].
    - rewrite Hz. split; [by intros ?%elem_of_nil|]. intros Hg. by apply count_true_0 in Hg.
    - destruct (count_true pd mn mx b) as [|He]; [done..|]. rewrite He, gpoint_elem.
      + by apply count_true_pos.
      + apply lc1.
      + apply lc2.
      + by apply coords_positive.
  Qed.
  Lemma partials_le : count_flag true pd mn mx b <= prodl (ecounts (coords pd mn) (coords pd mx) (coords pd b)).
  Proof. destruct (count_true pd mn mx b) as [->|He]; [done..|lia|lia]. Qed.
  Lemma partials_NoDup : NoDup (partials pd mn mx b).
  Proof. apply gpoint_NoDup; [apply lc1|apply lc2|by apply coords_positive|apply partials_le]. Qed.
  Lemma partials_length part : part ∈ partials pd mn mx b -> length part = length (flagged 0 pd).
  Proof.
    unfold partials. intros (k&->&_)%elem_of_list_fmap. rewrite length_gpoint by (apply lc1 || apply lc2).
    symmetry. by apply length_flagged.
  Qed.
  Lemma curs_elem part cur : length part = length (flagged 0 pd) ->
    cur ∈ curs pd part mn mx b <-> coords pd cur = part /\ gridF pd mn mx b cur.
  Proof.
    intros Hp. unfold curs. destruct (decide (count_flag false pd mn mx b = 0)) as [Hz|Hnz].
    - rewrite Hz. split; [by intros ?%elem_of_nil|]. intros [_ Hg]. by apply count_false_0 in Hg.
    - destruct (count_false pd part mn mx b) as [|He]; [done..|]. rewrite He, gpoint_elem.
      + by apply count_false_pos.
      + by rewrite !length_fill.
      + by rewrite !length_fill.
      + done.
  Qed.
  Lemma curs_le part : length part = length (flagged 0 pd) ->
    count_flag false pd mn mx b <= prodl (ecounts (fill pd part mn) (fill pd part mx) b).
  Proof. intros Hp. destruct (count_false pd part mn mx b) as [->|He]; [done..|lia|lia]. Qed.
  Lemma curs_NoDup part : length part = length (flagged 0 pd) -> NoDup (curs pd part mn mx b).
  Proof.
    intros Hp. apply gpoint_NoDup; [by rewrite !length_fill|by rewrite !length_fill|done|by apply curs_le].
  Qed.
  (** all corners *)
  Lemma corners_elem cur : cur ∈ (partials pd mn mx b ≫= fun part => curs pd part mn mx b) <-> gridS mn mx b cur.
  Proof.
    rewrite elem_of_list_bind, (gridS_split pd mn mx b) by done. split.
    - intros (part&Hc&Hp). pose proof (partials_length _ Hp) as Hl. apply curs_elem in Hc as [<- Hf]; [|done].
      split; [|done]. by apply partials_elem.
    - intros [Hp Hf]. apply partials_elem in Hp. exists (coords pd cur). split; [|done].
      apply curs_elem; [by apply partials_length|done].
  Qed.
  Lemma corners_NoDup : NoDup (partials pd mn mx b ≫= fun part => curs pd part mn mx b).
  Proof.
    apply NoDup_bind; [apply partials_NoDup| |].
    - intros part Hp. apply curs_NoDup. by apply partials_length.
    - intros part part' cur Hp Hp' Hc Hc'.
      apply curs_elem in Hc as [<- _]; [|by apply partials_length].
      apply curs_elem in Hc' as [<- _]; [done|by apply partials_length].
  Qed.
End Level.

(** ---- iterate_indices ---- *)
Fixpoint vis (conf : list (list nat * list bool)) (mn mx : list nat) : list (list nat) :=
  match conf with
  | [] => []
  | (b, pd) :: conf' =>
      match conf' with
      | [] => lexg mn mx b
      | _ :: _ => partials pd mn mx b ≫= fun part => curs pd part mn mx b ≫= fun cur => vis conf' cur (vadd2 cur b)
      end
  end.

Lemma vis_step b pd c conf mn mx :
  vis ((b, pd) :: c :: conf) mn mx =
  partials pd mn mx b ≫= fun part => curs pd part mn mx b ≫= fun cur => vis (c :: conf) cur (vadd2 cur b).
Proof. done. Qed.
Lemma gridS_length mn mx st p : gridS mn mx st p -> length p = length mn.
Proof.
  revert mx st p. induction mn as [|m mn IH]; intros [|x mx] [|s st] [|c p]; try done. simpl.
  intros [_ Hg]. f_equal. by eapply IH.
Qed.
Lemma gridF_length pd mn mx st p : gridF pd mn mx st p -> length p = length pd.
Proof.
  revert mn mx st p. induction pd as [|b pd IH]; intros [|m mn] [|x mx] [|s st] [|c p]; try done. simpl.
  intros [_ Hg]. f_equal. by eapply IH.
Qed.
Lemma length_vadd2 u v n : length u = n -> length v = n -> length (vadd2 u v) = n.
Proof. intros <- Hv. unfold vadd2. rewrite zip_with_length. lia. Qed.

Section Iter.
  Context {T : Type}.
  Implicit Types f : list nat -> prog T unit.

  (** The task of one value of the reduced iterator. *)
  Definition part_task dim pd b conf' (mn mx : list nat) f (partial_index : list nat) : prog T unit :=
    let! min_fill := ofres (map_dims partial_index (flagged 0 pd) mn) in
    let! max_fill := ofres (map_dims partial_index (flagged 0 pd) mx) in
    let! it := ofres (dim_index_iterator min_fill max_fill b) in
    let! curs := ofres (iterates (count_flag false pd mn mx b) min_fill max_fill b it) in
    foldP curs (fun cur_index _ =>
      let! recursive_max := ofres (add_block dim cur_index b) in
      iterate_conf dim conf' cur_index recursive_max f) tt.

  Lemma iterate_conf_last dim b pd mn mx f :
    length mn = dim -> length mx = dim -> iterate_conf dim [(b, pd)] mn mx f = loop_nest dim mn mx b f.
  Proof. intros <- L. cbn [iterate_conf]. rewrite L, !Nat.eqb_refl. done. Qed.
  Lemma iterate_conf_step dim b pd c conf' mn mx f :
    length mn = dim -> length mx = dim -> length b = dim -> length pd = dim -> positive b ->
    iterate_conf dim ((b, pd) :: c :: conf') mn mx f =
    parL (partials pd mn mx b) (part_task dim pd b (c :: conf') mn mx f).
  Proof.
    intros L1 L2 L3 L4 Hpos.
    assert (length (coords pd mx) = length (coords pd mn)) as E1 by (apply length_coords; lia).
    assert (length (coords pd b) = length (coords pd mn)) as E2 by (apply length_coords; lia).
    cbn [iterate_conf]. rewrite L2, L1, !Nat.eqb_refl. cbn [negb orb].
    rewrite par_map_ok, !reduce_dims_ok by done. cbn [ofres pbind].
    rewrite !index_count_ok by done. cbn [ofres pbind].
    rewrite (dim_index_iterator_ok (coords pd mn)) by done. cbn [ofres pbind].
    rewrite iterates_ok; [|done|done|by apply coords_positive|apply partials_le; lia]. cbn [ofres pbind]. done.
  Qed.
  Lemma part_task_ok dim pd b conf' mn mx f part :
    length mn = dim -> length mx = dim -> length b = dim -> length pd = dim -> positive b ->
    part ∈ partials pd mn mx b ->
    part_task dim pd b conf' mn mx f part =
    foldP (curs pd part mn mx b) (fun cur_index _ =>
      let! recursive_max := ofres (add_block dim cur_index b) in
      iterate_conf dim conf' cur_index recursive_max f) tt.
  Proof.
    intros L1 L2 L3 L4 Hpos Hp. apply partials_length in Hp; [|lia..].
    unfold part_task. rewrite !map_dims_ok by lia. cbn [ofres pbind].
    rewrite dim_index_iterator_ok by (rewrite !length_fill by lia; lia). cbn [ofres pbind].
    rewrite iterates_ok; [|rewrite !length_fill by lia; lia..|done|apply curs_le; lia || done]. done.
  Qed.
  Lemma curs_length pd part mn mx b cur :
    length mn = length pd -> length mx = length pd -> length b = length pd -> positive b ->
    part ∈ partials pd mn mx b -> cur ∈ curs pd part mn mx b -> length cur = length pd.
  Proof.
    intros L1 L2 L3 Hpos Hp Hc. apply partials_length in Hp; [|lia..].
    apply curs_elem in Hc as [_ Hf]; [|lia..|done|done]. by eapply gridF_length.
  Qed.
  Lemma nested_step dim b pd c conf :
    nested dim ((b, pd) :: c :: conf) ->
    length b = dim /\ length pd = dim /\ positive b /\ divides_all c.1 b /\ nested dim (c :: conf).
  Proof. simpl. destruct c as [b' pd']. intros (?&?&?&?&?). done. Qed.

  Lemma run_iterate dim conf mn mx f m :
    nested dim conf -> length mn = dim -> length mx = dim ->
    run (iterate_conf dim conf mn mx f) m = run (foldP (vis conf mn mx) (fun p _ => f p) tt) m.
  Proof.
    revert mn mx m. induction conf as [|[b pd] conf IH]; intros mn mx m Hn L1 L2; [done|].
    destruct conf as [|c conf].
    - destruct Hn as (Lb&_&Hpos&_). rewrite iterate_conf_last by done. by apply run_loop_nest.
    - apply nested_step in Hn as (Lb&Lp&Hpos&_&Hn).
      rewrite iterate_conf_step by done. rewrite vis_step. rewrite run_parL.
      rewrite (run_foldP_bind (partials pd mn mx b)). apply run_foldP_ext. intros part m' Hp.
      rewrite part_task_ok by done. rewrite (run_foldP_bind (curs pd part mn mx b)).
      apply run_foldP_ext. intros cur m'' Hc. apply curs_length in Hc; [|lia..|done|done].
      rewrite add_block_ok by lia. cbn [ofres pbind]. apply IH; [done|lia|]. apply length_vadd2; lia.
  Qed.

  Lemma iterate_all (Q : prog T unit -> Prop) dim conf mn mx f :
    (forall lo hi s body, 0 < s -> (forall c, c ∈ rng lo hi s -> Q (body c)) -> Q (forP lo hi s body)) ->
    (forall (l : list (list nat)) body, (forall c, c ∈ l -> Q (body c)) -> Q (foldP l (fun x _ => body x) tt)) ->
    (forall (l : list (list nat)) body, (forall c, c ∈ l -> Q (body c)) -> Q (parL l body)) ->
    nested dim conf -> length mn = dim -> length mx = dim ->
    (forall p, p ∈ vis conf mn mx -> Q (f p)) ->
    Q (iterate_conf dim conf mn mx f).
  Proof.
    intros Hfor Hfold Hpar. revert mn mx. induction conf as [|[b pd] conf IH]; intros mn mx Hn L1 L2 Hf; [done|].
    destruct conf as [|c conf].
    - destruct Hn as (Lb&_&Hpos&_). rewrite iterate_conf_last by done. rewrite <- L1.
      refine (execute_looped_all Q f [] [] [] mn mx b [] _ _ _ _ _ _ _ _); done || lia.
    - apply nested_step in Hn as (Lb&Lp&Hpos&_&Hn). rewrite iterate_conf_step by done.
      apply Hpar. intros part Hp. rewrite part_task_ok by done. apply Hfold. intros cur Hc.
      pose proof Hc as Lc. apply curs_length in Lc; [|lia..|done|done].
      rewrite add_block_ok by lia. cbn [ofres pbind]. apply IH; [done|lia|apply length_vadd2; lia|].
      intros p Hpv. apply Hf. rewrite vis_step. apply elem_of_list_bind. exists part. split; [|done].
      apply elem_of_list_bind. by exists cur.
  Qed.
  Lemma acc_in_iterate (R W : loc -> Prop) dim conf mn mx f :
    nested dim conf -> length mn = dim -> length mx = dim ->
    (forall p, p ∈ vis conf mn mx -> acc_in R W (f p)) -> acc_in R W (iterate_conf dim conf mn mx f).
  Proof.
    apply (iterate_all (acc_in R W)).
    - intros lo hi s body Hs Hb. unfold forP. rewrite forS_step by done. apply acc_in_foldP. intros c [] Hc. by apply Hb.
    - intros l body Hb. apply acc_in_foldP. intros c [] Hc. by apply Hb.
    - intros l body Hb. by apply acc_in_parL.
  Qed.
End Iter.

(** one dimension of two nested levels *)
Lemma two_levels m x b s p : 0 < b -> 0 < s -> (s | b) ->
  (exists c, (exists q, c = m + q * b /\ c < x) /\ (exists r, p = c + r * s /\ p < c + b)) <->
  (exists q, p = m + q * s /\ p < m + cdiv (x - m) b * b).
Proof.
  intros Hb Hs [t Ht]. split.
  - intros (c&(q&->&Hx)&(r&->&Hr)). assert (q < cdiv (x - m) b) as Hq by (apply cdiv_spec; lia).
    assert (S q * b <= cdiv (x - m) b * b) by (apply Nat.mul_le_mono_r; lia). simpl in *.
    exists (q * t + r). split; [rewrite Ht; lia|lia].
  - intros (q&->&Hq). set (n := cdiv (x - m) b) in *.
    assert (q * s / b < n) as Hk by (apply Nat.div_lt_upper_bound; lia).
    pose proof (Nat.div_mod (q * s) b ltac:(lia)) as Hdm.
    pose proof (Nat.mod_upper_bound (q * s) b ltac:(lia)) as Hmb.
    set (k := q * s / b) in *. exists (m + k * b). split.
    + exists k. split; [done|]. unfold n in Hk. apply cdiv_spec in Hk; lia.
    + exists (q - k * t). split; [|lia]. rewrite Nat.mul_sub_distr_r.
      assert (k * t * s = k * b) by (rewrite Ht; lia). lia.
Qed.
Lemma same_block m b c c' p q q' : c = m + q * b -> c' = m + q' * b -> c <= p -> p < c + b -> c' <= p -> p < c' + b -> c = c'.
Proof. intros. assert (q = q') by nia. lia. Qed.
Lemma cdiv_exact e b : 0 < b -> (b | e) -> cdiv e b * b = e.
Proof.
  intros Hb [t ->]. unfold cdiv. replace (t * b + (b - 1)) with ((b - 1) + t * b) by lia.
  rewrite Nat.div_add by lia. rewrite Nat.div_small by lia. lia.
Qed.

Definition bound (conf : list (list nat * list bool)) (mn mx : list nat) : list nat :=
  match conf with
  | (b, _) :: _ :: _ => vadd2 mn (round_up (extent mn mx) b)
  | _ => mx
  end.
Lemma final_step_cons c c' conf : final_step (c :: c' :: conf) = final_step (c' :: conf).
Proof. done. Qed.
Lemma divides_all_trans a b c : divides_all a b -> divides_all b c -> divides_all a c.
Proof.
  unfold divides_all. intros H. revert c. induction H as [|x y a b Hxy H IH]; intros c Hc; inversion Hc; subst; constructor.
  - etransitivity; eassumption.
  - by apply IH.
Qed.
Lemma divides_all_refl a : divides_all a a.
Proof. unfold divides_all. induction a; constructor; [reflexivity|assumption]. Qed.
Lemma nested_final dim b pd conf :
  nested dim ((b, pd) :: conf) ->
  let s := final_step ((b, pd) :: conf) in length s = dim /\ positive s /\ divides_all s b.
Proof.
  revert b pd. induction conf as [|[b' pd'] conf IH]; intros b pd Hn.
  - destruct Hn as (?&_&?&_). split_and!; [done|done|apply divides_all_refl].
  - apply nested_step in Hn as (_&_&_&Hd&Hn). destruct (IH b' pd' Hn) as (?&?&?).
    rewrite final_step_cons. split_and!; [done|done|]. eapply divides_all_trans; eassumption.
Qed.
Lemma vis_levels mn mx b s p :
  length mx = length mn -> length b = length mn -> length s = length mn -> positive b -> positive s -> divides_all s b ->
  (exists cur, gridS mn mx b cur /\ gridS cur (vadd2 cur b) s p) <->
  gridS mn (vadd2 mn (round_up (extent mn mx) b)) s p.
Proof.
  revert mx b s p. induction mn as [|m mn IH]; intros [|x mx] [|bb b] [|ss s] p L1 L2 L3 Hb Hs Hd; try done.
  - split.
    + intros (cur&Hc&Hp). destruct cur; [|done]. destruct p; done.
    + intros Hp. exists []. destruct p; done.
  - inversion Hb as [|? ? Hb1 Hb']; inversion Hs as [|? ? Hs1 Hs']; inversion Hd as [|? ? ? ? Hd1 Hd']; subst.
    simpl in L1, L2, L3. specialize (IH mx b s).
    change (vadd2 (m :: mn) (round_up (extent (m :: mn) (x :: mx)) (bb :: b))) with
      (m + cdiv (x - m) bb * bb :: vadd2 mn (round_up (extent mn mx) b)).
    destruct p as [|y p].
    { simpl. split; [|done]. intros ([|c cur]&Hc&Hp); done. }
    cbn [gridS]. rewrite <- (two_levels m x bb ss y Hb1 Hs1 Hd1), <- (IH p) by (done || lia). split.
    + intros ([|c cur]&Hc&Hp); [done|]. destruct Hc as [Hc1 Hc2].
      change (vadd2 (c :: cur) (bb :: b)) with (c + bb :: vadd2 cur b) in Hp. destruct Hp as [Hp1 Hp2].
      split; [by exists c|by exists cur].
    + intros [(c&Hc1&Hp1) (cur&Hc2&Hp2)]. exists (c :: cur). split; [done|].
      change (vadd2 (c :: cur) (bb :: b)) with (c + bb :: vadd2 cur b). done.
Qed.
Lemma round_up_id mn b e : length b = length e -> length mn = length e -> positive b -> divides_all b e ->
  vadd2 mn (round_up (extent mn (vadd2 mn e)) b) = vadd2 mn e.
Proof.
  intros L1 L2 Hb Hd. revert mn b L1 L2 Hb Hd. induction e as [|x e IH]; intros [|m mn] [|y b] L1 L2 Hb Hd; try done.
  inversion Hb; inversion Hd; subst. simpl in *.
  change (m + cdiv (m + x - m) y * y :: vadd2 mn (round_up (extent mn (vadd2 mn e)) b) = m + x :: vadd2 mn e).
  rewrite IH by (done || lia). f_equal. replace (m + x - m) with x by lia. by rewrite cdiv_exact.
Qed.
Lemma bound_inner dim c conf cur b :
  nested dim (c :: conf) -> length cur = dim -> length b = dim -> divides_all c.1 b ->
  bound (c :: conf) cur (vadd2 cur b) = vadd2 cur b.
Proof.
  intros Hn L1 L2 Hd. destruct c as [b' pd']. destruct conf as [|c' conf]; [done|].
  apply nested_step in Hn as (?&?&?&_&_). cbn [bound]. apply round_up_id; lia || done.
Qed.

Lemma vis_elem dim conf mn mx p :
  nested dim conf -> length mn = dim -> length mx = dim ->
  p ∈ vis conf mn mx <-> gridS mn (bound conf mn mx) (final_step conf) p.
Proof.
  revert mn mx p. induction conf as [|[b pd] conf IH]; intros mn mx p Hn L1 L2; [done|].
  destruct conf as [|c conf].
  - destruct Hn as (Lb&_&Hpos&_). cbn [vis bound]. change (final_step [(b, pd)]) with b. apply lexg_elem; [lia|lia|done].
  - pose proof (nested_final _ _ _ _ Hn) as (Ls&Hs&Hd). cbv zeta in *. rewrite final_step_cons in *.
    apply nested_step in Hn as (Lb&Lp&Hpos&Hdc&Hn). rewrite vis_step. cbn [bound].
    rewrite <- bind_bind, <- vis_levels by (done || lia). rewrite elem_of_list_bind.
    split; intros (cur&H1&H2); exists cur.
    + apply corners_elem in H2; [|lia..|done]. split; [done|]. pose proof (gridS_length _ _ _ _ H2).
      apply IH in H1; [|done|lia|apply length_vadd2; lia]. rewrite (bound_inner dim) in H1; [done|done|lia|lia|done].
    + pose proof (gridS_length _ _ _ _ H1).
      split; [|apply corners_elem; [lia..|done|done]].
      apply IH; [done|lia|apply length_vadd2; lia|]. rewrite (bound_inner dim); [done|done|lia|lia|done].
Qed.
Lemma same_block_vec mn mx b s cur cur' p :
  gridS mn mx b cur -> gridS mn mx b cur' -> gridS cur (vadd2 cur b) s p -> gridS cur' (vadd2 cur' b) s p -> cur = cur'.
Proof.
  revert mx b s cur cur' p. induction mn as [|m mn IH]; intros [|x mx] [|bb b] s [|c cur] [|c' cur'] p; try done.
  destruct s as [|ss s], p as [|y p]; try done.
  change (vadd2 (c :: cur) (bb :: b)) with (c + bb :: vadd2 cur b).
  change (vadd2 (c' :: cur') (bb :: b)) with (c' + bb :: vadd2 cur' b). cbn [gridS].
  intros [(q&Hq&_) H1] [(q'&Hq'&_) H2] [(r&Hr&Hr2) H3] [(r'&Hr'&Hr2') H4].
  pose proof (Nat.le_0_l (r * ss)). pose proof (Nat.le_0_l (r' * ss)).
  assert (c = c') as <- by (apply (same_block m bb c c' y q q'); clear - Hq Hq' Hr Hr2 Hr' Hr2' H H0; try assumption; lia).
  f_equal.
  eapply IH; eassumption.
Qed.
Lemma vis_NoDup dim conf mn mx :
  nested dim conf -> length mn = dim -> length mx = dim -> NoDup (vis conf mn mx).
Proof.
  revert mn mx. induction conf as [|[b pd] conf IH]; intros mn mx Hn L1 L2; [done|].
  destruct conf as [|c conf].
  - destruct Hn as (Lb&_&Hpos&_). cbn [vis]. by apply lexg_NoDup.
  - pose proof (nested_step _ _ _ _ _ Hn) as (Lb&Lp&Hpos&Hdc&Hn'). rewrite vis_step.
    rewrite <- bind_bind. apply NoDup_bind.
    + apply corners_NoDup; [lia..|done].
    + intros cur Hc. apply corners_elem in Hc; [|lia..|done]. pose proof (gridS_length _ _ _ _ Hc).
      apply IH; [done|lia|apply length_vadd2; lia].
    + intros cur cur' p Hc Hc' Hp Hp'. apply corners_elem in Hc; [|lia..|done]. apply corners_elem in Hc'; [|lia..|done].
      pose proof (gridS_length _ _ _ _ Hc). pose proof (gridS_length _ _ _ _ Hc').
      apply (vis_elem dim) in Hp; [|done|lia|apply length_vadd2; lia].
      apply (vis_elem dim) in Hp'; [|done|lia|apply length_vadd2; lia].
      rewrite (bound_inner dim) in Hp, Hp'; [|done|lia|lia|done|done|lia|lia|done].
      eapply same_block_vec; eassumption.
Qed.
