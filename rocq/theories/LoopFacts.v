(** Loops, ranges, and update lists. *)
From Verif Require Import Conc ConcFacts.

(** ** Ranges *)
Lemma rng_fuel_spec fuel cur hi st i :
  0 < st -> hi - cur <= fuel ->
  i ∈ rng_fuel fuel cur hi st <-> exists q, i = cur + q * st /\ i < hi.
Proof.
  intros Hst. revert cur. induction fuel as [|f IH]; intros cur Hf; simpl.
  - split; [inversion 1|]. intros (q&->&?). lia.
  - destruct (cur <? hi) eqn:E.
    + apply Nat.ltb_lt in E. rewrite elem_of_cons, IH by lia. split.
      * intros [->|(q&->&?)]; [exists 0; lia|]. exists (S q). simpl. lia.
      * intros (q&->&?). destruct q as [|q]; [left; simpl; lia|].
        right. exists q. simpl in *. lia.
    + apply Nat.ltb_ge in E. split; [inversion 1|]. intros (q&->&?). lia.
Qed.
Lemma elem_of_rng lo hi st i :
  0 < st -> i ∈ rng lo hi st <-> exists q, i = lo + q * st /\ i < hi.
Proof. intros. by apply rng_fuel_spec. Qed.

Lemma rng_fuel_lb fuel cur hi st i : i ∈ rng_fuel fuel cur hi st -> cur <= i < hi.
Proof.
  revert cur. induction fuel as [|f IH]; intros cur; simpl; [inversion 1|].
  destruct (cur <? hi) eqn:E; [|inversion 1].
  apply Nat.ltb_lt in E. rewrite elem_of_cons. intros [->|Hi]; [lia|].
  apply IH in Hi. lia.
Qed.
Lemma rng_bounds lo hi st i : i ∈ rng lo hi st -> lo <= i < hi.
Proof. apply rng_fuel_lb. Qed.

Lemma rng_fuel_NoDup fuel cur hi st : 0 < st -> NoDup (rng_fuel fuel cur hi st).
Proof.
  intros Hst. revert cur. induction fuel as [|f IH]; intros cur; simpl; [constructor|].
  destruct (cur <? hi); [|constructor]. constructor; [|apply IH].
  intros Hi. apply rng_fuel_lb in Hi. lia.
Qed.
Lemma NoDup_rng lo hi st : 0 < st -> NoDup (rng lo hi st).
Proof. apply rng_fuel_NoDup. Qed.

Lemma rng_nil lo hi st : hi <= lo -> rng lo hi st = [].
Proof. intros. unfold rng. replace (hi - lo) with 0 by lia. done. Qed.

Lemma rng_fuel_mono f1 f2 cur hi st :
  0 < st -> hi - cur <= f1 -> hi - cur <= f2 -> rng_fuel f1 cur hi st = rng_fuel f2 cur hi st.
Proof.
  intros Hst. revert f2 cur. induction f1 as [|f1 IH]; intros f2 cur H1 H2.
  - simpl. destruct f2; simpl; [done|]. destruct (cur <? hi) eqn:E; [|done].
    apply Nat.ltb_lt in E; lia.
  - simpl. destruct (cur <? hi) eqn:E.
    + apply Nat.ltb_lt in E. destruct f2; [lia|]. simpl.
      rewrite (proj2 (Nat.ltb_lt _ _) E). f_equal. apply IH; lia.
    + destruct f2; simpl; [done|]. by rewrite E.
Qed.
Lemma rng_cons lo hi st : 0 < st -> lo < hi -> rng lo hi st = lo :: rng (lo + st) hi st.
Proof.
  intros Hst H. unfold rng. destruct (hi - lo) as [|f] eqn:E; [lia|]. simpl.
  rewrite (proj2 (Nat.ltb_lt _ _) H). f_equal. apply rng_fuel_mono; lia.
Qed.

(** Explicit form of a range. *)
Lemma rng_exact lo n st : 0 < st -> rng lo (lo + n * st) st = (fun q => lo + q * st) <$> seq 0 n.
Proof.
  intros Hst. revert lo. induction n as [|n IH]; intros lo.
  - by rewrite rng_nil by lia.
  - rewrite rng_cons by nia. simpl. f_equal; [lia|].
    replace (lo + (st + n * st)) with ((lo + st) + n * st) by lia. rewrite IH.
    rewrite <- fmap_S_seq, <- list_fmap_compose. apply list_fmap_ext. intros i x Hx. simpl. lia.
Qed.
Lemma rng_0_exact n st : 0 < st -> rng 0 (n * st) st = (fun q => q * st) <$> seq 0 n.
Proof. intros Hst. exact (rng_exact 0 n st Hst). Qed.
Lemma rng_1 lo hi : rng lo hi 1 = seq lo (hi - lo).
Proof.
  destruct (decide (hi <= lo)).
  - rewrite rng_nil by done. replace (hi - lo) with 0 by lia. done.
  - replace hi with (lo + (hi - lo) * 1) at 1 by lia. rewrite rng_exact by lia.
    replace (seq lo (hi - lo)) with (Nat.add lo <$> seq 0 (hi - lo))
      by (rewrite fmap_add_seq; f_equal; lia).
    apply list_fmap_ext. intros; simpl; lia.
Qed.

(** General explicit form: ceil((hi-lo)/st) elements. *)
Lemma cdiv_spec a b q : 0 < b -> q < cdiv a b <-> q * b < a.
Proof.
  intros Hb. unfold cdiv. split; intros Hq.
  - pose proof (Nat.mul_div_le (a + (b - 1)) b). 
    assert (b * (q + 1) <= b * ((a + (b - 1)) / b)) by (apply Nat.mul_le_mono_l; lia). nia.
  - apply Nat.div_le_lower_bound; [lia|]. nia.
Qed.
Lemma rng_explicit lo hi st : 0 < st -> rng lo hi st = (fun q => lo + q * st) <$> seq 0 (cdiv (hi - lo) st).
Proof.
  intros Hst. remember (cdiv (hi - lo) st) as n eqn:En.
  revert lo En. induction n as [|n IH]; intros lo En.
  - rewrite rng_nil; [done|]. destruct (decide (hi <= lo)); [done|].
    pose proof (proj2 (cdiv_spec (hi - lo) st 0 Hst)). lia.
  - assert (lo < hi).
    { pose proof (proj1 (cdiv_spec (hi - lo) st 0 Hst)). lia. }
    rewrite rng_cons by done. simpl. f_equal; [lia|]. rewrite IH.
    + rewrite <- fmap_S_seq, <- list_fmap_compose. apply list_fmap_ext. intros; simpl; lia.
    + unfold cdiv in *. destruct (decide (hi - lo <= st)).
      * replace (hi - (lo + st)) with 0 by lia.
        assert ((hi - lo + (st - 1)) / st < 2) by (apply Nat.div_lt_upper_bound; lia).
        assert (n = 0) as -> by lia. symmetry. apply Nat.div_small. lia.
      * replace (hi - lo + (st - 1)) with (hi - (lo + st) + (st - 1) + 1 * st) in En by lia.
        rewrite Nat.div_add in En by lia. lia.
Qed.

Lemma divide_div_mul n b : 0 < b -> (b | n) -> n = n / b * b.
Proof. intros Hb [q ->]. by rewrite Nat.div_mul by lia. Qed.

(** Blocks of consecutive numbers. *)
Lemma seq_blocks (n b : nat) : (seq 0 n ≫= fun q => seq (q * b) b) = seq 0 (n * b).
Proof.
  induction n as [|n IH]; [done|].
  rewrite seq_S, bind_app, IH. simpl. rewrite app_nil_r.
  replace (b + n * b) with (n * b + b) by lia. by rewrite seq_app.
Qed.

(** ** Selecting from a flat list *)
Lemma bind_nil {X Y} (g : X -> list Y) (l : list X) :
  (forall x, x ∈ l -> g x = []) -> l ≫= g = [].
Proof.
  induction l as [|x l IH]; [done|]. intros Hg. rewrite bind_cons, (Hg x), IH; [done| |].
  - intros y Hy. apply Hg, elem_of_cons; by right.
  - apply elem_of_cons; by left.
Qed.
Lemma bind_select {X Y} (g : X -> list Y) (l : list X) (x0 : X) :
  NoDup l -> x0 ∈ l -> (forall x, x ∈ l -> x <> x0 -> g x = []) -> l ≫= g = g x0.
Proof.
  induction l as [|x l IH]; intros Hnd Hin Hg; [inversion Hin|].
  inversion Hnd as [|? ? Hx Hnd']; subst. rewrite bind_cons.
  apply elem_of_cons in Hin as [->|Hin].
  - assert (l ≫= g = []) as ->; [|by rewrite app_nil_r].
    apply bind_nil. intros y Hy. apply Hg; [apply elem_of_cons; by right|].
    intros ->. done.
  - rewrite (Hg x), IH; [done|done|done| | |].
    + intros z Hz Hne. apply Hg; [|done]. apply elem_of_cons; by right.
    + apply elem_of_cons; by left.
    + intros ->. done.
Qed.
Lemma bind_ext {X Y} (g h : X -> list Y) (l : list X) :
  (forall x, x ∈ l -> g x = h x) -> l ≫= g = l ≫= h.
Proof.
  induction l as [|x l IH]; [done|]. intros Hg. rewrite !bind_cons, (Hg x), IH; [done| |].
  - intros y Hy. apply Hg, elem_of_cons; by right.
  - apply elem_of_cons; by left.
Qed.
Lemma bind_fmap_l {X Y Z} (h : X -> Y) (g : Y -> list Z) (l : list X) :
  (h <$> l) ≫= g = l ≫= (fun x => g (h x)).
Proof. induction l as [|x l IH]; [done|]. rewrite fmap_cons, !bind_cons. by rewrite IH. Qed.
Lemma fmap_bind_r {X Y Z} (h : Y -> Z) (g : X -> list Y) (l : list X) :
  h <$> (l ≫= g) = l ≫= (fun x => h <$> g x).
Proof. induction l as [|x l IH]; [done|]. rewrite !bind_cons, fmap_app. by rewrite IH. Qed.
Lemma bind_ret_fmap {X Y} (h : X -> Y) (l : list X) : l ≫= (fun x => [h x]) = h <$> l.
Proof. induction l as [|x l IH]; [done|]. rewrite bind_cons, fmap_cons. by rewrite IH. Qed.
Lemma bind_bind {X Y Z} (g : X -> list Y) (h : Y -> list Z) (l : list X) :
  (l ≫= g) ≫= h = l ≫= (fun x => g x ≫= h).
Proof. induction l as [|x l IH]; [done|]. rewrite !bind_cons, bind_app. by rewrite IH. Qed.

(** ** Update lists *)
Section Upd.
  Context {K : Type} `{EqDecision K} {T : Type}.
  (** The functions applied to key [j], in order. *)
  Fixpoint contrib (j : K) (us : list (K * (T -> T))) : list (T -> T) :=
    match us with
    | [] => []
    | (k, f) :: us' => if decide (k = j) then f :: contrib j us' else contrib j us'
    end.
  Lemma contrib_app j us1 us2 : contrib j (us1 ++ us2) = contrib j us1 ++ contrib j us2.
  Proof. induction us1 as [|[k f] us1 IH]; simpl; [done|]. case_decide; by rewrite IH. Qed.
  Lemma contrib_bind {X} j (g : X -> list (K * (T -> T))) l :
    contrib j (l ≫= g) = l ≫= (fun x => contrib j (g x)).
  Proof. induction l as [|x l IH]; [done|]. by rewrite !bind_cons, contrib_app, IH. Qed.
  Lemma contrib_none j us : (forall u, u ∈ us -> u.1 <> j) -> contrib j us = [].
  Proof.
    induction us as [|[k f] us IH]; intros Hu; simpl; [done|]. rewrite decide_False.
    - apply IH. intros u Hu'. apply Hu, elem_of_cons; by right.
    - apply (Hu (k, f)), elem_of_cons; by left.
  Qed.
  Lemma contrib_single_eq j f : contrib j [(j, f)] = [f].
  Proof. simpl. by rewrite decide_True. Qed.
  Lemma contrib_single_ne j k f : k <> j -> contrib j [(k, f)] = [].
  Proof. intros. simpl. by rewrite decide_False. Qed.
  (** Value after applying the functions in order. *)
  Definition fold_upd (fs : list (T -> T)) (v : T) : T := foldl (fun a f => f a) v fs.
  Lemma fold_upd_app fs1 fs2 v : fold_upd (fs1 ++ fs2) v = fold_upd fs2 (fold_upd fs1 v).
  Proof. unfold fold_upd. by rewrite foldl_app. Qed.
End Upd.

Section UpdL.
  Context {T : Type}.
  Definition applyL (us : list (nat * (T -> T))) (s : list T) : list T :=
    foldl (fun s u => alter u.2 u.1 s) s us.
  Lemma applyL_app us1 us2 s : applyL (us1 ++ us2) s = applyL us2 (applyL us1 s).
  Proof. unfold applyL. by rewrite foldl_app. Qed.
  Lemma length_applyL us s : length (applyL us s) = length s.
  Proof.
    revert s. induction us as [|u us IH]; intros s; simpl; [done|].
    rewrite IH. apply alter_length.
  Qed.
  Lemma applyL_lookup us s j : applyL us s !! j = fold_upd (contrib j us) <$> s !! j.
  Proof.
    revert s. induction us as [|[k f] us IH]; intros s; simpl.
    - by destruct (s !! j).
    - rewrite IH. case_decide as E.
      + subst. rewrite list_lookup_alter. by destruct (s !! j).
      + by rewrite list_lookup_alter_ne.
  Qed.

  Lemma alter_const_insert (s : list T) i x : alter (fun _ => x) i s = <[i := x]> s.
  Proof.
    apply list_eq. intros j. destruct (decide (i = j)) as [->|].
    - rewrite list_lookup_alter. destruct (s !! j) eqn:E; simpl.
      + rewrite list_lookup_insert; [done|]. by eapply lookup_lt_Some.
      + symmetry. apply lookup_ge_None. rewrite insert_length. by apply lookup_ge_None.
    - by rewrite list_lookup_alter_ne, list_lookup_insert_ne.
  Qed.
End UpdL.

(** ** Loops *)
Section Loops.
  Context {T : Type}.
  Implicit Types m : mem T.

  Lemma foldP_app {S X} (l1 l2 : list X) (f : X -> S -> prog T S) s :
    (exists s', foldP l1 f s = Ret s') \/ (exists e, foldP l1 f s = Err e) ->
    foldP (l1 ++ l2) f s = pbind (foldP l2 f) (foldP l1 f s).
  Proof.
    revert s. induction l1 as [|x l1 IH]; intros s H; simpl; [done|].
    simpl in H. destruct (f x s) as [s1|e| | | |]; simpl in *; try (by destruct H as [[??]|[??]]); try done.
    by apply IH.
  Qed.

  (** A loop whose body is pure under an invariant. *)
  Lemma foldP_pure {S X} (I : S -> Prop) (l : list X) (f : X -> S -> prog T S) (g : X -> S -> S) s :
    I s ->
    (forall x s, x ∈ l -> I s -> f x s = Ret (g x s) /\ I (g x s)) ->
    foldP l f s = Ret (foldl (fun s x => g x s) s l) /\ I (foldl (fun s x => g x s) s l).
  Proof.
    revert s. induction l as [|x l IH]; intros s Hs Hf; simpl; [done|].
    destruct (Hf x s) as [-> HI]; [by apply elem_of_cons; left|done|]. simpl.
    apply IH; [done|]. intros y s' Hy. apply Hf, elem_of_cons; by right.
  Qed.

  (** A loop whose body updates a local vector by an update list. *)
  Lemma foldP_applyL {X} n (l : list X) (f : X -> list T -> prog T (list T)) us s :
    length s = n ->
    (forall x s, x ∈ l -> length s = n -> f x s = Ret (applyL (us x) s)) ->
    foldP l f s = Ret (applyL (l ≫= us) s).
  Proof.
    revert s. induction l as [|x l IH]; intros s Hs Hf; [done|]. cbn [foldP].
    rewrite (Hf x s) by (done || by apply elem_of_cons; left). cbn [pbind].
    rewrite IH.
    - by rewrite bind_cons, applyL_app.
    - by rewrite length_applyL.
    - intros y s' Hy. apply Hf, elem_of_cons; by right.
  Qed.

  (** A loop whose first failing iteration is known. *)
  Lemma foldP_err {S X} (l1 l2 : list X) x (f : X -> S -> prog T S) s s1 e :
    foldP l1 f s = Ret s1 -> f x s1 = Err e -> foldP (l1 ++ x :: l2) f s = Err e.
  Proof.
    intros H1 H2. rewrite foldP_app by eauto. rewrite H1. simpl. by rewrite H2.
  Qed.

  Lemma forS_step {S} lo hi st (f : nat -> S -> prog T S) s :
    0 < st -> forS lo hi st f s = foldP (rng lo hi st) f s.
  Proof.
    intros. unfold forS. destruct st; [lia|]. simpl. by rewrite andb_false_r.
  Qed.
  Lemma forS_empty {S} lo hi st (f : nat -> S -> prog T S) s :
    hi <= lo -> forS lo hi st f s = Ret s.
  Proof.
    intros. unfold forS. rewrite (proj2 (Nat.ltb_ge _ _)) by done. simpl.
    by rewrite rng_nil.
  Qed.

  (** *** Footprints *)
  Lemma acc_in_foldP {S X} R W (l : list X) (f : X -> S -> prog T S) s :
    (forall x s, x ∈ l -> acc_in R W (f x s)) -> acc_in R W (foldP l f s).
  Proof.
    revert s. induction l as [|x l IH]; intros s H; simpl; [done|].
    apply acc_in_bind; [apply H, elem_of_cons; by left|].
    intros s'. apply IH. intros y s'' Hy. apply H, elem_of_cons; by right.
  Qed.
  Lemma acc_in_forS {S} R W lo hi st (f : nat -> S -> prog T S) s :
    (forall x s, lo <= x < hi -> (0 < st -> exists q, x = lo + q * st) -> acc_in R W (f x s)) ->
    acc_in R W (forS lo hi st f s).
  Proof.
    intros H. unfold forS. destruct ((lo <? hi) && (st =? 0)) eqn:E.
    - apply acc_in_bind; [|done]. apply andb_prop in E as [E1 E2].
      apply Nat.ltb_lt in E1. apply Nat.eqb_eq in E2. apply H; lia.
    - apply acc_in_foldP. intros x s' Hx. apply H.
      + by eapply rng_bounds.
      + intros Hst. apply elem_of_rng in Hx as (q&->&?); [by exists q|done].
  Qed.
  Lemma acc_in_parL {X} R W (l : list X) (body : X -> prog T unit) :
    (forall x, x ∈ l -> acc_in R W (body x)) -> acc_in R W (parL l body).
  Proof.
    induction l as [|x l IH]; intros H; simpl; [done|]. split_and!; [|apply IH|done].
    - apply H, elem_of_cons; by left.
    - intros y Hy. apply H, elem_of_cons; by right.
  Qed.
  Lemma drf_foldP {S X} (l : list X) (f : X -> S -> prog T S) s :
    (forall x s, x ∈ l -> drf (f x s)) -> drf (foldP l f s).
  Proof.
    revert s. induction l as [|x l IH]; intros s H; simpl; [done|].
    apply drf_bind; [apply H, elem_of_cons; by left|].
    intros s'. apply IH. intros y s'' Hy. apply H, elem_of_cons; by right.
  Qed.
  Lemma drf_forS {S} lo hi st (f : nat -> S -> prog T S) s :
    (forall x s, lo <= x < hi -> (0 < st -> exists q, x = lo + q * st) -> drf (f x s)) ->
    drf (forS lo hi st f s).
  Proof.
    intros H. unfold forS. destruct ((lo <? hi) && (st =? 0)) eqn:E.
    - apply drf_bind; [|done]. apply andb_prop in E as [E1 E2].
      apply Nat.ltb_lt in E1. apply Nat.eqb_eq in E2. apply H; lia.
    - apply drf_foldP. intros x s' Hx. apply H.
      + by eapply rng_bounds.
      + intros Hst. apply elem_of_rng in Hx as (q&->&?); [by exists q|done].
  Qed.
  (** A parallel loop whose iterations have pairwise disjoint footprints. *)
  Lemma drf_parL {X} (l : list X) (body : X -> prog T unit) (R W : X -> loc -> Prop) :
    NoDup l ->
    (forall x, x ∈ l -> drf (body x)) ->
    (forall x, x ∈ l -> acc_in (R x) (W x) (body x)) ->
    (forall x y c, x ∈ l -> y ∈ l -> x <> y -> W x c -> R y c \/ W y c -> False) ->
    drf (parL l body).
  Proof.
    induction l as [|x l IH]; intros Hnd Hdrf Hacc Hdis; simpl; [done|].
    inversion Hnd as [|? ? Hx Hnd']; subst.
    split_and!; [|apply Hdrf, elem_of_cons; by left| |done].
    - exists (R x), (W x), (fun c => exists y, y ∈ l /\ R y c), (fun c => exists y, y ∈ l /\ W y c).
      split_and!.
      + apply Hacc, elem_of_cons; by left.
      + apply acc_in_parL. intros y Hy. eapply acc_in_mono; [| |apply Hacc, elem_of_cons; by right].
        * intros c Hc. left. by exists y.
        * intros c Hc. by exists y.
      + intros c Hc [(y&Hy&Hc')|(y&Hy&Hc')]; (eapply (Hdis x y c); [apply elem_of_cons; by left|apply elem_of_cons; by right| |done|tauto]); intros ->; done.
      + intros c (y&Hy&Hc') Hc; (eapply (Hdis y x c); [apply elem_of_cons; by right|apply elem_of_cons; by left| |done|tauto]); intros ->; done.
    - apply IH; [done| | |].
      + intros y Hy. apply Hdrf, elem_of_cons; by right.
      + intros y Hy. apply Hacc, elem_of_cons; by right.
      + intros y z c Hy Hz. apply Hdis; apply elem_of_cons; by right.
  Qed.

  (** *** Sequential effect on the shared memory *)
  Definition liftD (f : T -> T) (v : val T) : val T :=
    match v with VD t => VD (f t) | VF b => VF b end.
  Definition applyM (us : list (loc * (T -> T))) (m : mem T) : mem T :=
    foldl (fun m u => alter (liftD u.2) u.1 m) m us.
  Definition present (us : list (loc * (T -> T))) m : Prop :=
    forall u, u ∈ us -> exists t, m !! u.1 = Some (VD t).
  (** [p] performs exactly the updates [us]. *)
  Definition does (p : prog T unit) (us : list (loc * (T -> T))) : Prop :=
    forall m, present us m -> run p m = Ok (tt, applyM us m).

  Lemma applyM_app us1 us2 m : applyM (us1 ++ us2) m = applyM us2 (applyM us1 m).
  Proof. unfold applyM. by rewrite foldl_app. Qed.
  Lemma applyM_lookup us m l :
    applyM us m !! l = liftD (fold_upd (contrib l us)) <$> m !! l.
  Proof.
    revert m. induction us as [|[k f] us IH]; intros m; simpl.
    - destruct (m !! l) as [[]|]; done.
    - rewrite IH. case_decide as E.
      + subst. rewrite lookup_alter. by destruct (m !! l) as [[]|].
      + by rewrite lookup_alter_ne.
  Qed.
  Lemma applyM_present us us' m : present us m -> present us (applyM us' m).
  Proof.
    intros Hp u Hu. destruct (Hp u Hu) as [t Ht]. rewrite applyM_lookup, Ht. simpl. eauto.
  Qed.
  Lemma present_app us1 us2 m : present (us1 ++ us2) m <-> present us1 m /\ present us2 m.
  Proof.
    unfold present. split.
    - intros H. split; intros u Hu; apply H, elem_of_app; auto.
    - intros [H1 H2] u [Hu|Hu]%elem_of_app; auto.
  Qed.
  Lemma present_bind {X} (g : X -> list (loc * (T -> T))) l m :
    (forall x, x ∈ l -> present (g x) m) -> present (l ≫= g) m.
  Proof. intros H u (x&Hu&Hx)%elem_of_list_bind. by eapply H. Qed.

  Lemma does_ret : does (Ret tt) [].
  Proof. by intros m _. Qed.
  Lemma does_bind p q us1 us2 : does p us1 -> does q us2 -> does (p ;;; q) (us1 ++ us2).
  Proof.
    intros Hp Hq m [H1 H2]%present_app. rewrite run_bind, Hp by done.
    rewrite Hq by (by apply applyM_present). by rewrite applyM_app.
  Qed.
  Lemma does_foldP {X} (l : list X) (f : X -> prog T unit) g :
    (forall x, x ∈ l -> does (f x) (g x)) -> does (foldP l (fun x _ => f x) tt) (l ≫= g).
  Proof.
    induction l as [|x l IH]; intros H; [apply does_ret|].
    rewrite bind_cons. intros m [H1 H2]%present_app. cbn [foldP].
    rewrite run_bind, (H x) by (done || by apply elem_of_cons; left).
    rewrite IH.
    - by rewrite applyM_app.
    - intros y Hy. apply H, elem_of_cons; by right.
    - by apply applyM_present.
  Qed.
  Lemma does_forP lo hi st (f : nat -> prog T unit) g :
    0 < st ->
    (forall x, x ∈ rng lo hi st -> does (f x) (g x)) -> does (forP lo hi st f) (rng lo hi st ≫= g).
  Proof. intros Hst H. unfold forP. rewrite forS_step by done. by apply does_foldP. Qed.
  Lemma does_parL {X} (l : list X) (f : X -> prog T unit) g :
    (forall x, x ∈ l -> does (f x) (g x)) -> does (parL l f) (l ≫= g).
  Proof.
    induction l as [|x l IH]; intros H; [apply does_ret|].
    rewrite bind_cons. intros m [H1 H2]%present_app. cbn [parL run].
    rewrite (H x) by (done || by apply elem_of_cons; left).
    rewrite IH.
    - by rewrite applyM_app.
    - intros y Hy. apply H, elem_of_cons; by right.
    - by apply applyM_present.
  Qed.
  Lemma applyM_set l x m t : m !! l = Some (VD t) -> alter (liftD (fun _ => x)) l m = <[l := VD x]> m.
  Proof.
    intros Hm. apply map_eq. intros j. destruct (decide (l = j)) as [->|].
    - by rewrite lookup_alter, lookup_insert, Hm.
    - by rewrite lookup_alter_ne, lookup_insert_ne.
  Qed.
  Lemma applyM_upd l f m t : m !! l = Some (VD t) -> alter (liftD f) l m = <[l := VD (f t)]> m.
  Proof.
    intros Hm. apply map_eq. intros j. destruct (decide (l = j)) as [->|].
    - by rewrite lookup_alter, lookup_insert, Hm.
    - by rewrite lookup_alter_ne, lookup_insert_ne.
  Qed.
  Lemma does_wr a i x : does (wr a i x) [((a, i), fun _ => x)].
  Proof.
    intros m Hp. destruct (Hp ((a, i), fun _ => x)) as [t Ht]; [by apply elem_of_list_singleton|].
    simpl in *. rewrite Ht. by erewrite applyM_set.
  Qed.
  Lemma does_wr_at a i x : does (wr_at a i x) [((a, i), fun _ => x)].
  Proof.
    intros m Hp. destruct (Hp ((a, i), fun _ => x)) as [t Ht]; [by apply elem_of_list_singleton|].
    simpl in *. rewrite Ht. by erewrite applyM_set.
  Qed.
  (** a[i] = f(a[i]) *)
  Lemma does_rmw a i f : does (let! x := rd a i in wr a i (f x)) [((a, i), f)].
  Proof.
    intros m Hp. destruct (Hp ((a, i), f)) as [t Ht]; [by apply elem_of_list_singleton|].
    simpl in *. rewrite Ht. simpl. rewrite Ht. by erewrite applyM_upd.
  Qed.

  (** *** Allocation and reading back *)
  Definition cells (a : arr) (s : list T) (m : mem T) : Prop :=
    forall i, m !! (a, i) = VD <$> s !! i.

  Lemma run_valloc a n x m :
    exists m', run (valloc a n x) m = Ok (tt, m') /\
      (forall i, i < n -> m' !! (a, i) = Some (VD x)) /\
      (forall l, (l.1 <> a \/ n <= l.2) -> m' !! l = m !! l).
  Proof.
    unfold valloc. assert (forall lo n m, exists m', run (foldP (seq lo n) (fun i _ => Alloc (a, i) (VD x) (Ret tt)) tt) m = Ok (tt, m') /\
      (forall i, lo <= i < lo + n -> m' !! (a, i) = Some (VD x)) /\
      (forall l, (l.1 <> a \/ l.2 < lo \/ lo + n <= l.2) -> m' !! l = m !! l)) as H.
    { clear. intros lo n. revert lo. induction n as [|n IH]; intros lo m; simpl.
      - exists m. split_and!; [done|lia|done].
      - destruct (IH (S lo) (<[(a, lo) := VD x]> m)) as (m'&Hr&H1&H2).
        exists m'. split_and!; [done| |].
        + intros i Hi. destruct (decide (i = lo)) as [->|]; [|apply H1; lia].
          rewrite H2 by (simpl; lia). by rewrite lookup_insert.
        + intros [b j] Hl; simpl in *. rewrite H2 by (simpl; destruct Hl as [?|[?|?]]; [by left|lia|lia]).
          rewrite lookup_insert_ne; [done|]. intros [= -> ->]. destruct Hl as [?|[?|?]]; [done|lia|lia]. }
    destruct (H 0 n m) as (m'&?&H1&H2). exists m'. split_and!; [done| |].
    - intros. apply H1. lia.
    - intros l Hl. apply H2. destruct Hl as [?|?]; [by left|right; right; lia].
  Qed.

  Lemma run_vread a n s m :
    length s = n -> (forall i, i < n -> m !! (a, i) = VD <$> s !! i) ->
    run (vread a n) m = Ok (s, m).
  Proof.
    intros Hlen Hc. unfold vread.
    assert (forall lo k acc, lo + k = n -> acc = take lo s ->
      run (foldP (seq lo k) (fun i acc => let! x := rd a i in Ret (acc ++ [x])) acc) m = Ok (s, m)) as H.
    { intros lo k. revert lo. induction k as [|k IH]; intros lo acc Hlo ->; simpl.
      - f_equal. f_equal. rewrite Nat.add_0_r in Hlo. subst. apply take_ge. lia.
      - rewrite Hc by lia. destruct (s !! lo) as [t|] eqn:E.
        + simpl. apply IH; [lia|]. symmetry; by apply take_S_r.
        + apply lookup_ge_None in E. lia. }
    apply H; [lia|done].
  Qed.

  Lemma acc_in_valloc (R W : loc -> Prop) a n (x : T) : (forall i, i < n -> W (a, i)) -> acc_in R W (valloc a n x).
  Proof.
    intros HW. apply acc_in_foldP. intros i _ Hi. apply elem_of_seq in Hi. simpl. split; [apply HW; lia|done].
  Qed.
  Lemma acc_in_rd (R W : loc -> Prop) a i : R (a, i) \/ W (a, i) -> acc_in R W (rd (T:=T) a i).
  Proof. intros H. simpl. split; [done|]. intros [[]|]; done. Qed.
  Lemma acc_in_wr (R W : loc -> Prop) a i (x : T) : W (a, i) -> acc_in R W (wr a i x).
  Proof. intros H. simpl. split; [done|]. intros []; done. Qed.
  Lemma acc_in_wr_at (R W : loc -> Prop) a i (x : T) : W (a, i) -> acc_in R W (wr_at a i x).
  Proof. intros H. simpl. split; [done|]. intros []; done. Qed.
  Lemma acc_in_vget (R W : loc -> Prop) (v : list T) i : acc_in R W (vget v i).
  Proof. unfold vget. by case_match. Qed.
  Lemma acc_in_vat (R W : loc -> Prop) (v : list T) i : acc_in R W (vat v i).
  Proof. unfold vat. by case_match. Qed.
  Lemma acc_in_vset (R W : loc -> Prop) (v : list T) i x : acc_in R W (vset v i x).
  Proof. unfold vset. by case_match. Qed.
  Lemma drf_rd a i : drf (rd (T:=T) a i).
  Proof. intros [[]|]; done. Qed.
  Lemma drf_wr a i (x : T) : drf (wr a i x).
  Proof. intros []; done. Qed.
  Lemma drf_wr_at a i (x : T) : drf (wr_at a i x).
  Proof. intros []; done. Qed.
  Lemma drf_vget (v : list T) i : drf (vget v i).
  Proof. unfold vget. by case_match. Qed.
  Lemma drf_vat (v : list T) i : drf (vat v i).
  Proof. unfold vat. by case_match. Qed.
  Lemma drf_vset (v : list T) i x : drf (vset v i x).
  Proof. unfold vset. by case_match. Qed.
  Lemma drf_valloc a n (x : T) : drf (valloc a n x).
  Proof. apply drf_foldP. done. Qed.
  Lemma drf_vread a n : drf (vread (T:=T) a n).
  Proof. apply drf_foldP. intros. apply drf_bind; [apply drf_rd|done]. Qed.

  (** A program without memory accesses. *)
  Lemma vget_lookup (v : list T) i x : v !! i = Some x -> vget v i = Ret x.
  Proof. unfold vget. by intros ->. Qed.
  Lemma vat_lookup (v : list T) i x : v !! i = Some x -> vat v i = Ret x.
  Proof. unfold vat. by intros ->. Qed.
  Lemma vset_ok (v : list T) i x : i < length v -> vset v i x = Ret (applyL [(i, fun _ => x)] v).
  Proof.
    intros H. unfold vset. rewrite (proj2 (Nat.ltb_lt _ _)) by done. simpl.
    by rewrite alter_const_insert.
  Qed.
  Lemma vset_at_ok (v : list T) i x : i < length v -> vset_at v i x = Ret (applyL [(i, fun _ => x)] v).
  Proof.
    intros H. unfold vset_at. rewrite (proj2 (Nat.ltb_lt _ _)) by done. simpl.
    by rewrite alter_const_insert.
  Qed.

  (** ** Programs that only compute (no memory access, no threads) *)
  Definition simple {A} (p : prog T A) : Prop := (exists a, p = Ret a) \/ (exists e, p = Err e).
  Lemma simple_ret {A} (a : A) : simple (Ret a).
  Proof. left; eauto. Qed.
  Lemma simple_err {A} e : simple (Err e : prog T A).
  Proof. right; eauto. Qed.
  Lemma simple_bind {A B} (f : A -> prog T B) p : simple p -> (forall a, simple (f a)) -> simple (pbind f p).
  Proof. intros [[a ->]|[e ->]] Hf; simpl; [apply Hf|apply simple_err]. Qed.
  Lemma simple_foldP {S X} (l : list X) (f : X -> S -> prog T S) s :
    (forall x s, simple (f x s)) -> simple (foldP l f s).
  Proof.
    intros Hf. revert s. induction l as [|x l IH]; intros s; simpl; [apply simple_ret|].
    by apply simple_bind.
  Qed.
  Lemma simple_forS {S} lo hi st (f : nat -> S -> prog T S) s :
    (forall x s, simple (f x s)) -> simple (forS lo hi st f s).
  Proof.
    intros Hf. unfold forS. destruct (_ && _); [|by apply simple_foldP].
    apply simple_bind; [done|]. intros; apply simple_err.
  Qed.
  Lemma simple_pcatch {A} e (h p : prog T A) : simple h -> simple p -> simple (pcatch e h p).
  Proof. intros Hh [[a ->]|[e' ->]]; simpl; [apply simple_ret|]. case_decide; [done|apply simple_err]. Qed.
  Lemma simple_vget (v : list T) i : simple (vget v i).
  Proof. unfold vget. destruct (v !! i); [apply simple_ret|apply simple_err]. Qed.
  Lemma simple_vat (v : list T) i : simple (vat v i).
  Proof. unfold vat. destruct (v !! i); [apply simple_ret|apply simple_err]. Qed.
  Lemma simple_vset (v : list T) i x : simple (vset v i x).
  Proof. unfold vset. destruct (_ <? _); [apply simple_ret|apply simple_err]. Qed.
  Lemma simple_vset_at (v : list T) i x : simple (vset_at v i x).
  Proof. unfold vset_at. destruct (_ <? _); [apply simple_ret|apply simple_err]. Qed.
  Lemma simple_acc {A} R W (p : prog T A) : simple p -> acc_in R W p.
  Proof. intros [[a ->]|[e ->]]; done. Qed.
  Lemma simple_drf {A} (p : prog T A) : simple p -> drf p.
  Proof. intros [[a ->]|[e ->]]; done. Qed.

  (** ** Loops that hit an error *)
  Definition okI {A} (I : A -> Prop) (E : err) (p : prog T A) : Prop := (exists a, p = Ret a /\ I a) \/ p = Err E.
  Lemma okI_bind {A B} (I : A -> Prop) (J : B -> Prop) E (f : A -> prog T B) p :
    okI I E p -> (forall a, I a -> okI J E (f a)) -> okI J E (pbind f p).
  Proof. intros [(a&->&Ha)| ->] Hf; simpl; [by apply Hf|by right]. Qed.
  Lemma okI_foldP {S X} (I : S -> Prop) E (l : list X) (f : X -> S -> prog T S) s :
    I s -> (forall x s, x ∈ l -> I s -> okI I E (f x s)) -> okI I E (foldP l f s).
  Proof.
    revert s. induction l as [|x l IH]; intros s Hs Hf; simpl; [left; eauto|].
    eapply okI_bind; [apply Hf; [by apply elem_of_cons; left|done]|].
    intros s' Hs'. apply IH; [done|]. intros y s'' Hy. apply Hf, elem_of_cons; by right.
  Qed.
  Lemma foldP_fails {S X} (I : S -> Prop) E (l : list X) x0 (f : X -> S -> prog T S) s :
    I s -> (forall x s, x ∈ l -> I s -> okI I E (f x s)) -> x0 ∈ l -> (forall s, I s -> f x0 s = Err E) ->
    foldP l f s = Err E.
  Proof.
    revert s. induction l as [|x l IH]; intros s Hs Hf Hin Hx0; [inversion Hin|]. cbn [foldP].
    destruct (Hf x s) as [(s'&Hs'&HI)| ->]; [by apply elem_of_cons; left|done| |done].
    apply elem_of_cons in Hin as [->|Hin].
    - by rewrite Hx0.
    - rewrite Hs'. cbn [pbind]. apply IH; [done| |done|done].
      intros y s'' Hy. apply Hf, elem_of_cons; by right.
  Qed.
  Lemma okI_vget (v : list T) i : okI (fun _ => True) EOob (vget v i).
  Proof. unfold okI, vget. destruct (v !! i); eauto. Qed.
  Lemma okI_vset (v : list T) i x : okI (fun v' => length v' = length v) EOob (vset v i x).
  Proof.
    unfold okI, vset. destruct (_ <? _); [left|by right]. eexists; split; [done|]. apply insert_length.
  Qed.
  Lemma vget_oob (v : list T) i : length v <= i -> vget v i = Err EOob.
  Proof. intros Hi. unfold vget. by rewrite (proj2 (lookup_ge_None _ _)). Qed.

  (** ** Parallel loops with independent effects *)
  Lemma run_parL_sep {X} (l : list X) (body : X -> prog T unit) (I : mem T -> Prop) (Q : X -> mem T -> Prop) m :
    NoDup l -> I m ->
    (forall x m, x ∈ l -> I m -> exists m', run (body x) m = Ok (tt, m') /\ I m' /\ Q x m') ->
    (forall x y m m', x ∈ l -> y ∈ l -> x <> y -> I m -> Q x m -> run (body y) m = Ok (tt, m') -> Q x m') ->
    exists m', run (parL l body) m = Ok (tt, m') /\ I m' /\ forall x, x ∈ l -> Q x m'.
  Proof.
    intros Hnd HI Hb Hst.
    assert (forall done todo m, l = done ++ todo -> I m -> (forall x, x ∈ done -> Q x m) ->
      exists m', run (parL todo body) m = Ok (tt, m') /\ I m' /\ forall x, x ∈ l -> Q x m') as Hgen.
    { intros dn todo. revert dn. induction todo as [|x todo IH]; intros dn m0 Hl HI0 Hd.
      - exists m0. split; [done|]. split; [done|]. intros x Hx. apply Hd. rewrite Hl, app_nil_r in Hx. done.
      - assert (x ∈ l) by (rewrite Hl; apply elem_of_app; right; by apply elem_of_cons; left).
        destruct (Hb x m0) as (m1&Hr&HI1&HQ); [done..|].
        destruct (IH (dn ++ [x]) m1) as (m2&Hr2&HI2&HQ2).
        + by rewrite <- app_assoc.
        + done.
        + intros y [Hy|Hy]%elem_of_app.
          * eapply (Hst y x m0); [|done| |done|by apply Hd|done].
            -- rewrite Hl. apply elem_of_app; by left.
            -- intros ->. rewrite Hl in Hnd. apply NoDup_app in Hnd as (_&Hdisj&_).
               apply (Hdisj x Hy). by apply elem_of_cons; left.
          * apply elem_of_list_singleton in Hy as ->. done.
        + exists m2. simpl. rewrite Hr, Hr2. done. }
    apply (Hgen [] l m); [done|done|]. intros x Hx. inversion Hx.
  Qed.

  Lemma run_vread_inv a n m (C : list T) m' :
    run (vread a n) m = Ok (C, m') -> m' = m /\ length C = n /\ forall i, i < n -> m !! (a, i) = VD <$> C !! i.
  Proof.
    unfold vread. intros Hr.
    assert (Hgen : forall k lo acc C, run (foldP (seq lo k) (fun i acc => let! x := rd a i in Ret (acc ++ [x])) acc) m = Ok (C, m') ->
      m' = m /\ length C = length acc + k /\ (forall p, p < length acc -> C !! p = acc !! p) /\
      forall q, q < k -> VD <$> C !! (length acc + q) = m !! (a, lo + q)).
    { induction k as [|k IH]; intros lo acc C0 H0; cbn [seq foldP] in H0.
      - simpl in H0. simplify_eq. split_and!; [done|lia|done|intros; lia].
      - rewrite run_bind in H0. unfold rd in H0 at 1. cbn [pbind run] in H0.
        destruct (m !! ((a, lo) : loc)) as [[t|]|] eqn:E; cbn [pbind run] in H0; try done.
        apply IH in H0 as (H0&H1&H2&H3). rewrite app_length in *. simpl in *. split_and!; [done|lia| |].
        + intros p Hp. rewrite H2 by lia. by rewrite lookup_app_l.
        + intros q Hq. destruct q as [|q].
          * rewrite Nat.add_0_r, H2 by lia. rewrite lookup_app_r, Nat.sub_diag by lia. rewrite Nat.add_0_r. symmetry. exact E.
          * replace (length acc + S q) with (length acc + 1 + q) by lia. rewrite H3 by lia. do 2 f_equal. lia. }
    apply Hgen in Hr as (H0&H1&_&H3). simpl in *. split_and!; [done|done|]. intros i Hi. by rewrite H3.
  Qed.
End Loops.
