(** More program facts: failures with a precise kind, programs that read
    frozen arrays, domains of arrays, parallel loops with a failing task. *)
From Verif Require Import Tools.

Section Tools2.
  Context {T : Type}.

  (** ** Failures of programs that never store a flag *)
  Definition dat (o : option (val T)) : Prop := match o with Some (VF _) => False | _ => True end.
  Definition datm (m : mem T) : Prop := forall l, dat (m !! l).
  Fixpoint errD {A} (E : err -> Prop) (p : prog T A) : Prop :=
    match p with
    | Ret _ => True
    | Err e => E e
    | Rd l k => forall o, dat o -> errD E (k o)
    | Wr l v k => dat (Some v) /\ forall b, errD E (k b)
    | Alloc l v k => dat (Some v) /\ errD E k
    | Par p q k => errD E p /\ errD E q /\ errD E k
    end.
  Lemma datm_insert m l v : datm m -> dat (Some v) -> datm (<[l := v]> m).
  Proof.
    intros Hm Hv l'. destruct (decide (l' = l)) as [->|]; [by rewrite lookup_insert|by rewrite lookup_insert_ne].
  Qed.
  Lemma datm_empty : datm ∅.
  Proof. intros l. by rewrite lookup_empty. Qed.
  Lemma step_errD {A} E (p : prog T A) m p' m' :
    step A p m p' m' -> datm m -> errD E p -> errD E p' /\ datm m'.
  Proof.
    intros Hs. induction Hs as [A l k m|A l v k m w Hw|A l v k m Hw|A l v k m|A p p' q k m m' Hs IH|A p q q' k m m' Hs IH|A k m|A e q k m|A e p k m]; intros Hm He; simpl in *.
    - split; [|done]. apply He, Hm.
    - destruct He. split; [done|]. by apply datm_insert.
    - destruct He. done.
    - destruct He. split; [done|]. by apply datm_insert.
    - destruct He as (H1&H2&H3). destruct (IH Hm H1). done.
    - destruct He as (H1&H2&H3). destruct (IH Hm H2). done.
    - by destruct He as (_&_&?).
    - by destruct He as (?&_&_).
    - by destruct He as (_&?&_).
  Qed.
  Theorem drf_must_failD {A} (E : err -> Prop) (p : prog T A) m e :
    drf p -> errD E p -> datm m -> run p m = Fail e -> must_fail E p m.
  Proof.
    intros Hd. revert m e Hd. induction (next_wf p) as [p _ IH]. intros m e Hd HE Hm Hr.
    destruct (progress p m) as [Hp|Hs].
    - destruct p; try done. by constructor.
    - apply mf_step; [done|]. intros p' m1 Hs'. destruct (step_run_fail p m p' m1 e Hs' Hd Hr) as [e' He'].
      destruct (step_errD E p m p' m1 Hs' Hm HE).
      eapply IH; [by exists m, m1|by eapply step_drf|done|done|exact He'].
  Qed.
  Lemma errD_bind {A B} E (f : A -> prog T B) (p : prog T A) :
    errD E p -> (forall a, errD E (f a)) -> errD E (pbind f p).
  Proof. revert B f. induction p; intros B f Hp Hf; simpl in *; naive_solver. Qed.
  Lemma errD_foldP {S X} E (l : list X) (f : X -> S -> prog T S) s :
    (forall x s, x ∈ l -> errD E (f x s)) -> errD E (foldP l f s).
  Proof.
    revert s. induction l as [|x l IH]; intros s Hf; [done|]. cbn [foldP]. apply errD_bind.
    - apply Hf, elem_of_cons. by left.
    - intros s'. apply IH. intros y s'' Hy. apply Hf, elem_of_cons. by right.
  Qed.
  Lemma errD_forS {S} (E : err -> Prop) lo hi st (f : nat -> S -> prog T S) s :
    (0 < st \/ E EDiverge) -> (forall x s, lo <= x < hi -> errD E (f x s)) -> errD E (forS lo hi st f s).
  Proof.
    intros Hst Hf. unfold forS. destruct ((lo <? hi) && (st =? 0)) eqn:Eb.
    - apply andb_prop in Eb as [E1%Nat.ltb_lt E2%Nat.eqb_eq]. apply errD_bind; [apply Hf; lia|].
      intros _. simpl. destruct Hst; [lia|done].
    - apply errD_foldP. intros x s' Hx%rng_bounds. by apply Hf.
  Qed.
  Lemma errD_parL {X : Type} E (l : list X) (f : X -> prog T unit) :
    (forall x, x ∈ l -> errD E (f x)) -> errD E (parL l f).
  Proof.
    induction l as [|x l IH]; intros Hf; [done|]. simpl. split_and!; [|apply IH|done].
    - apply Hf, elem_of_cons. by left.
    - intros y Hy. apply Hf, elem_of_cons. by right.
  Qed.
  Lemma errD_rd (E : err -> Prop) a i : E EOob -> errD E (rd (T := T) a i).
  Proof. intros HE [[]|]; done. Qed.
  Lemma errD_wr (E : err -> Prop) a i x : E EOob -> errD E (wr (T := T) a i x).
  Proof. intros HE. split; [done|]. by intros []. Qed.
  Lemma errD_vget (E : err -> Prop) (v : list T) i : E EOob -> errD E (vget v i).
  Proof. intros HE. unfold vget. by case_match. Qed.
  Lemma errD_vset (E : err -> Prop) (v : list T) i x : E EOob -> errD E (vset v i x).
  Proof. intros HE. unfold vset. by case_match. Qed.
  Lemma errD_valloc (E : err -> Prop) a n (x : T) : errD E (valloc a n x).
  Proof. apply errD_foldP. done. Qed.
  Lemma errD_vread (E : err -> Prop) a n : E EOob -> errD E (vread (T := T) a n).
  Proof. intros HE. apply errD_foldP. intros i s _. apply errD_bind; [by apply errD_rd|done]. Qed.

  (** ** Sequential programs are deterministic *)
  Lemma nopar_step {A} (p : prog T A) m p' m' : step A p m p' m' -> nopar p -> nopar p' /\ run p m = run p' m'.
  Proof.
    intros Hs. inversion Hs; subst; simpl; try done.
    - intros Hn. rewrite H. by split; [apply Hn|].
    - intros Hn. rewrite H. by split; [apply Hn|].
  Qed.
  Theorem nopar_must_fail {A} (p : prog T A) m e :
    nopar p -> run p m = Fail e -> must_fail (fun e' => e' = e) p m.
  Proof.
    revert m. induction (next_wf p) as [p _ IH]. intros m Hn Hr. destruct (progress p m) as [Hp|Hs].
    - destruct p; try done. simpl in Hr. simplify_eq. by constructor.
    - apply mf_step; [done|]. intros p' m1 Hs'. destruct (nopar_step p m p' m1 Hs' Hn) as [Hn' Hr'].
      apply IH; [by exists m, m1|done|congruence].
  Qed.
  Lemma nopar_foldP {S X} (l : list X) (f : X -> S -> prog T S) s :
    (forall x s, nopar (f x s)) -> nopar (foldP l f s).
  Proof. intros Hf. revert s. induction l as [|x l IH]; intros s; [done|]. cbn [foldP]. by apply nopar_bind. Qed.
  Lemma nopar_forS {S} lo hi st (f : nat -> S -> prog T S) s :
    (forall x s, nopar (f x s)) -> nopar (forS lo hi st f s).
  Proof.
    intros Hf. unfold forS. destruct (_ && _); [|by apply nopar_foldP]. by apply nopar_bind.
  Qed.
  Lemma nopar_vget (v : list T) i : nopar (vget v i).
  Proof. unfold vget. by case_match. Qed.
  Lemma nopar_rd a i : nopar (rd (T := T) a i).
  Proof. intros [[]|]; done. Qed.
  Lemma nopar_wr a i (x : T) : nopar (wr a i x).
  Proof. by intros []. Qed.
  Lemma nopar_valloc a n (x : T) : nopar (valloc a n x).
  Proof. by apply nopar_foldP. Qed.
  Lemma nopar_vread a n : nopar (vread (T := T) a n).
  Proof. apply nopar_foldP. intros i s. apply nopar_bind; [apply nopar_rd|done]. Qed.

  (** ** Array domains do not change without allocation *)
  Fixpoint noalloc {A} (p : prog T A) : Prop :=
    match p with
    | Ret _ | Err _ => True
    | Rd _ k => forall v, noalloc (k v)
    | Wr _ _ k => forall b, noalloc (k b)
    | Alloc _ _ _ => False
    | Par p q k => noalloc p /\ noalloc q /\ noalloc k
    end.
  Lemma run_None {A} (p : prog T A) m a m' l :
    noalloc p -> run p m = Ok (a, m') -> (m' !! l = None <-> m !! l = None).
  Proof.
    revert m a m'. induction p as [A a|A e|A l' k IH|A l' v k IH|A l' v k IH|A p IHp q IHq k IHk];
      intros m a' m' Hn Hr; simpl in *; try done.
    - by simplify_eq.
    - by eapply IH.
    - destruct (m !! l') eqn:E; [|by eapply IH]. etransitivity; [by eapply IH|].
      destruct (decide (l = l')) as [->|]; [by rewrite lookup_insert, E|by rewrite lookup_insert_ne].
    - destruct Hn as (H1&H2&H3). destruct (run p m) as [[u m1]|] eqn:E1; [|done].
      destruct (run q m1) as [[u2 m2]|] eqn:E2; [|done].
      rewrite (IHk _ _ _ H3 Hr), (IHq _ _ _ H2 E2). by eapply IHp.
  Qed.
  Lemma noalloc_bind {A B} (f : A -> prog T B) (p : prog T A) :
    noalloc p -> (forall a, noalloc (f a)) -> noalloc (pbind f p).
  Proof. revert B f. induction p; intros B f Hp Hf; simpl in *; try done; naive_solver. Qed.
  Lemma noalloc_foldP {S X} (l : list X) (f : X -> S -> prog T S) s :
    (forall x s, noalloc (f x s)) -> noalloc (foldP l f s).
  Proof. intros Hf. revert s. induction l as [|x l IH]; intros s; [done|]. cbn [foldP]. by apply noalloc_bind. Qed.
  Lemma noalloc_forS {S} lo hi st (f : nat -> S -> prog T S) s :
    (forall x s, noalloc (f x s)) -> noalloc (forS lo hi st f s).
  Proof.
    intros Hf. unfold forS. destruct (_ && _); [|by apply noalloc_foldP]. by apply noalloc_bind.
  Qed.
  Lemma noalloc_vget (v : list T) i : noalloc (vget v i).
  Proof. unfold vget. by case_match. Qed.
  Lemma noalloc_rd a i : noalloc (rd (T := T) a i).
  Proof. intros [[]|]; done. Qed.
  Lemma noalloc_wr a i (x : T) : noalloc (wr a i x).
  Proof. by intros []. Qed.

  (** A loop in which one iteration fails whatever happened before. *)
  Lemma run_foldP_fails {X : Type} (I : mem T -> Prop) (l : list X) x0 (f : X -> prog T unit) e m :
    I m ->
    (forall x m, x ∈ l -> I m -> run (f x) m = Fail e \/ exists m', run (f x) m = Ok (tt, m') /\ I m') ->
    x0 ∈ l -> (forall m, I m -> run (f x0) m = Fail e) ->
    run (foldP l (fun x _ => f x) tt) m = Fail e.
  Proof.
    intros Hm Hf Hin H0. revert m Hm. induction l as [|x l IH]; intros m Hm; [by apply elem_of_nil in Hin|].
    cbn [foldP]. rewrite run_bind.
    destruct (Hf x m) as [->|(m'&Hr&Hm')]; [apply elem_of_cons; by left|done|done|].
    apply elem_of_cons in Hin as [->|Hin]; [by rewrite H0 in Hr|]. rewrite Hr.
    apply IH; [|done|done]. intros y m'' Hy. apply Hf, elem_of_cons. by right.
  Qed.
  (** A parallel loop in which one task fails in every memory. *)
  Lemma run_parL_fails {X : Type} (l : list X) x0 (f : X -> prog T unit) m :
    x0 ∈ l -> (forall m, exists e, run (f x0) m = Fail e) -> exists e, run (parL l f) m = Fail e.
  Proof.
    intros Hin H0. revert m. induction l as [|x l IH]; intros m; [by apply elem_of_nil in Hin|].
    cbn [parL run]. destruct (run (f x) m) as [[u m1]|e] eqn:E; [|eauto].
    apply elem_of_cons in Hin as [->|Hin]; [destruct (H0 m) as [e He]; congruence|].
    destruct (IH Hin m1) as [e ->]. eauto.
  Qed.

  (** ** Programs that read a frozen part of the memory *)
  Definition frozen (D : loc -> Prop) (m0 m : mem T) : Prop := forall l, D l -> m !! l = m0 !! l.
  Definition doesP (P : mem T -> Prop) (p : prog T unit) (us : list (loc * (T -> T))) : Prop :=
    forall m, P m -> present us m -> run p m = Ok (tt, applyM us m).
  Definition stable (P : mem T -> Prop) (us : list (loc * (T -> T))) : Prop :=
    forall m, P m -> P (applyM us m).
  Lemma frozen_stable D m0 us : (forall u, u ∈ us -> ~ D u.1) -> stable (frozen D m0) us.
  Proof.
    intros Hu m Hm l Hl. rewrite applyM_lookup, contrib_none.
    - rewrite <- (Hm l Hl). unfold fold_upd. simpl. by destruct (m !! l) as [[]|].
    - intros u Hin <-. by apply (Hu u Hin).
  Qed.
  Lemma stable_app P us1 us2 : stable P us1 -> stable P us2 -> stable P (us1 ++ us2).
  Proof. intros H1 H2 m Hm. rewrite applyM_app. by apply H2, H1. Qed.
  Lemma stable_bind {X : Type} P (l : list X) g : (forall x, x ∈ l -> stable P (g x)) -> stable P (l ≫= g).
  Proof.
    induction l as [|x l IH]; intros Hg; [intros m Hm; exact Hm|]. rewrite bind_cons. apply stable_app.
    - apply Hg, elem_of_cons. by left.
    - apply IH. intros y Hy. apply Hg, elem_of_cons. by right.
  Qed.
  Lemma does_doesP P p us : does p us -> doesP P p us.
  Proof. intros Hd m _. apply Hd. Qed.
  Lemma doesP_bind P p q us1 us2 : doesP P p us1 -> doesP P q us2 -> stable P us1 -> doesP P (p ;;; q) (us1 ++ us2).
  Proof.
    intros Hp Hq Hs m Hm [H1 H2]%present_app. rewrite run_bind, Hp by done.
    rewrite Hq; [by rewrite applyM_app|by apply Hs|by apply applyM_present].
  Qed.
  Lemma doesP_foldP {X : Type} P (l : list X) (f : X -> prog T unit) g :
    (forall x, x ∈ l -> doesP P (f x) (g x)) -> (forall x, x ∈ l -> stable P (g x)) ->
    doesP P (foldP l (fun x _ => f x) tt) (l ≫= g).
  Proof.
    induction l as [|x l IH]; intros Hf Hs; [intros m _ _; done|].
    rewrite bind_cons. cbn [foldP].
    assert (doesP P (foldP l (fun x _ => f x) tt) (l ≫= g)) as IH'.
    { apply IH; intros y Hy; [apply Hf|apply Hs]; apply elem_of_cons; by right. }
    intros m Hm [H1 H2]%present_app. rewrite run_bind, Hf; [|apply elem_of_cons; by left|done|done].
    rewrite IH'; [by rewrite applyM_app| |by apply applyM_present]. apply Hs; [apply elem_of_cons; by left|done].
  Qed.
  Lemma doesP_forP P lo hi st (f : nat -> prog T unit) g :
    0 < st -> (forall x, x ∈ rng lo hi st -> doesP P (f x) (g x)) -> (forall x, x ∈ rng lo hi st -> stable P (g x)) ->
    doesP P (forP lo hi st f) (rng lo hi st ≫= g).
  Proof. intros Hst Hf Hs. unfold forP. intros m. rewrite forS_step by done. by apply doesP_foldP. Qed.
  Lemma doesP_parL {X : Type} P (l : list X) (f : X -> prog T unit) g :
    (forall x, x ∈ l -> doesP P (f x) (g x)) -> (forall x, x ∈ l -> stable P (g x)) ->
    doesP P (parL l f) (l ≫= g).
  Proof.
    induction l as [|x l IH]; intros Hf Hs; [intros m _ _; done|].
    rewrite bind_cons.
    assert (doesP P (parL l f) (l ≫= g)) as IH'.
    { apply IH; intros y Hy; [apply Hf|apply Hs]; apply elem_of_cons; by right. }
    intros m Hm [H1 H2]%present_app. cbn [parL run]. rewrite Hf; [|apply elem_of_cons; by left|done|done].
    rewrite IH'; [by rewrite applyM_app| |by apply applyM_present]. apply Hs; [apply elem_of_cons; by left|done].
  Qed.
  Lemma run_rd (a : arr) i (t : T) m : m !! ((a, i) : loc) = Some (VD t) -> run (rd a i) m = Ok (t, m).
  Proof. intros Hm. unfold rd. cbn [run]. by rewrite Hm. Qed.

  (** A program fails when its first part does. *)
  Lemma step_bind_inv {A B} (f : A -> prog T B) (p : prog T A) m q m' :
    step B (pbind f p) m q m' -> (exists a, p = Ret a) \/ exists p', step A p m p' m' /\ q = pbind f p'.
  Proof.
    destruct p as [a|e|l k|l v k|l v k|p1 p2 k]; simpl; intros Hs; [by left; eexists|right..]; inversion Hs; subst.
    - eexists. split; [constructor|done].
    - eexists. split; [econstructor; eassumption|done].
    - eexists. split; [eapply step_wr_oob; eassumption|done].
    - eexists. split; [constructor|done].
    - eexists. split; [eapply step_par_l; eassumption|done].
    - eexists. split; [eapply step_par_r; eassumption|done].
    - eexists. split; [constructor|done].
    - eexists. split; [constructor|done].
    - eexists. split; [constructor|done].
  Qed.
  Lemma must_fail_bind {A B} (f : A -> prog T B) (E : err -> Prop) (p : prog T A) m :
    must_fail E p m -> must_fail E (pbind f p) m.
  Proof.
    induction 1 as [e m He|p m Hex Hall IH]; [by constructor|].
    assert (forall a, p <> Ret a) as Hnr.
    { intros a ->. destruct Hex as (p'&m'&Hs). inversion Hs. }
    apply mf_step.
    - destruct (progress (pbind f p) m) as [Ht|]; [|done]. exfalso.
      destruct Hex as (p'&m'&Hs). destruct p; simpl in *; try done; [by apply (Hnr a)|inversion Hs].
    - intros q m' Hs. apply step_bind_inv in Hs as [[a ->]|(p'&Hs&->)]; [by destruct (Hnr a)|]. by apply IH.
  Qed.
  Lemma must_fail_after {A B} (f : A -> prog T B) (E : err -> Prop) (p : prog T A) m a m' :
    nopar p -> run p m = Ok (a, m') -> must_fail E (f a) m' -> must_fail E (pbind f p) m.
  Proof.
    revert m. induction p as [A a0|A e|A l k IH|A l v k IH|A l v k IH|A p1 _ p2 _ k _]; intros m Hn Hr Hf; simpl in *; try done.
    - by simplify_eq.
    - apply mf_step; [by eexists _, _; constructor|]. intros q m1 Hs. inversion Hs; subst. by eapply IH.
    - apply mf_step.
      + destruct (m !! l) eqn:El; eexists _, _; [by eapply step_wr|by apply step_wr_oob].
      + intros q m1 Hs. inversion Hs as [|? ? ? ? w Hw|? ? ? ? Hw| | | | | |]; subst.
        * rewrite Hw in Hr. by eapply IH.
        * rewrite Hw in Hr. by eapply IH.
    - apply mf_step; [by eexists _, _; constructor|]. intros q m1 Hs. inversion Hs; subst. by eapply IH.
  Qed.

  (** ** Sequential runs *)
  Lemma run_errD {A} (E : err -> Prop) (p : prog T A) m :
    errD E p -> datm m -> match run p m with Ok (_, m') => datm m' | Fail e => E e end.
  Proof.
    revert m. induction p as [A a|A e'|A l k IH|A l v k IH|A l v k IH|A p1 IH1 p2 IH2 k IHk]; intros m He Hm; simpl in *; try done.
    - apply IH; [|done]. apply He, Hm.
    - destruct He as [Hv He]. destruct (m !! l); [apply IH; [done|by apply datm_insert]|by apply IH].
    - destruct He as [Hv He]. apply IH; [done|by apply datm_insert].
    - destruct He as (H1&H2&H3). specialize (IH1 m H1 Hm). destruct (run p1 m) as [[u m1]|]; [|done].
      specialize (IH2 m1 H2 IH1). destruct (run p2 m1) as [[u2 m2]|]; [|done]. by apply IHk.
  Qed.
  Lemma run_rd_inv {A} (a : arr) i (k : T -> prog T A) m r :
    run (let! x := rd a i in k x) m = Ok r -> exists t, m !! ((a, i) : loc) = Some (VD t) /\ run (k t) m = Ok r.
  Proof. unfold rd. cbn [pbind run]. destruct (m !! ((a, i) : loc)) as [[t|]|]; cbn [pbind run]; [|done|done]. by exists t. Qed.
  Lemma run_bind_inv {A B} (f : A -> prog T B) (p : prog T A) m r :
    run (pbind f p) m = Ok r -> exists a m', run p m = Ok (a, m') /\ run (f a) m' = Ok r.
  Proof. rewrite run_bind. destruct (run p m) as [[a m']|]; [|done]. intros Hr. by exists a, m'. Qed.
  Lemma run_foldP_inv {S X : Type} (l : list X) (f : X -> S -> prog T S) s m r x :
    (forall x s, noalloc (f x s)) -> run (foldP l f s) m = Ok r -> x ∈ l ->
    exists s' m1 r', (forall l, m1 !! l = None <-> m !! l = None) /\ run (f x s') m1 = Ok r'.
  Proof.
    intros Hn. revert s m. induction l as [|y l IH]; intros s m Hr Hx; [by apply elem_of_nil in Hx|].
    cbn [foldP] in Hr. apply run_bind_inv in Hr as (s1&m1&Hy&Hr). apply elem_of_cons in Hx as [->|Hx]; [by exists s, m, (s1, m1)|].
    destruct (IH s1 m1 Hr Hx) as (s'&m2&r'&Hd&Hr'). exists s', m2, r'. split; [|done].
    intros l'. rewrite Hd. eapply run_None; [apply Hn|exact Hy].
  Qed.
  Lemma run_foldP_snoc {S X : Type} (l : list X) x (f : X -> S -> prog T S) s m :
    run (foldP (l ++ [x]) f s) m = match run (foldP l f s) m with Ok (s', m') => run (f x s') m' | Fail e => Fail e end.
  Proof.
    revert s m. induction l as [|y l IH]; intros s m.
    - cbn [app foldP run]. rewrite run_bind. by destruct (run (f x s) m) as [[]|].
    - cbn [app foldP]. rewrite !run_bind. destruct (run (f y s) m) as [[s' m']|]; [|done]. apply IH.
  Qed.
End Tools2.
