(** Meta-theory of Conc.v: sequential execution determines every schedule of a
    program whose parallel branches have disjoint footprints. *)
From Verif Require Import Conc.

Section Facts.
  Context {T : Type}.
  Implicit Types m : mem T.

  (** ** Execution of sequences *)
  Lemma run_bind {A B} (f : A -> prog T B) (p : prog T A) m :
    run (pbind f p) m =
    match run p m with Ok (a, m') => run (f a) m' | Fail e => Fail e end.
  Proof.
    revert B f m. induction p as [A a|A e|A l k IH|A l v k IH|A l v k IH|A p IHp q IHq k IHk];
      intros B f m; simpl; try done.
    - destruct (m !! l); done.
    - destruct (run p m) as [[? m1]|]; [|done]. destruct (run q m1) as [[? m2]|]; done.
  Qed.

  Lemma acc_in_bind {A B} R W (f : A -> prog T B) (p : prog T A) :
    acc_in R W p -> (forall a, acc_in R W (f a)) -> acc_in R W (pbind f p).
  Proof.
    revert B f. induction p as [A a|A e|A l k IH|A l v k IH|A l v k IH|A p IHp q IHq k IHk];
      intros B f Hp Hf; simpl in *; try done.
    - destruct Hp; split; [done|]. intros; by apply IH.
    - destruct Hp; split; [done|]. intros; by apply IH.
    - destruct Hp; split; [done|]. by apply IH.
    - destruct Hp as (?&?&?). split_and!; try done. by apply IHk.
  Qed.

  Lemma drf_bind {A B} (f : A -> prog T B) (p : prog T A) :
    drf p -> (forall a, drf (f a)) -> drf (pbind f p).
  Proof.
    revert B f. induction p as [A a|A e|A l k IH|A l v k IH|A l v k IH|A p IHp q IHq k IHk];
      intros B f Hp Hf; simpl in *; try done.
    - intros; by apply IH.
    - intros; by apply IH.
    - by apply IH.
    - destruct Hp as (?&?&?&?). split_and!; try done. by apply IHk.
  Qed.

  Lemma acc_in_mono {A} (R W R' W' : loc -> Prop) (p : prog T A) :
    (forall l, R l -> R' l \/ W' l) -> (forall l, W l -> W' l) -> acc_in R W p -> acc_in R' W' p.
  Proof.
    intros HR HW. induction p as [A a|A e|A l k IH|A l v k IH|A l v k IH|A p IHp q IHq k IHk];
      simpl; try done.
    - intros [[H|H] H']; (split; [|intros; apply IH, H']).
      + by apply HR.
      + right. by apply HW.
    - intros [H H']; split; [by apply HW|]. intros; apply IH, H'.
    - intros [H H']; split; [by apply HW|]. by apply IH.
    - intros (?&?&?). split_and!; auto.
  Qed.

  (** ** Programs without parallelism *)
  Fixpoint nopar {A} (p : prog T A) : Prop :=
    match p with
    | Ret _ | Err _ => True
    | Rd _ k => forall v, nopar (k v)
    | Wr _ _ k => forall b, nopar (k b)
    | Alloc _ _ k => nopar k
    | Par _ _ _ => False
    end.
  Lemma nopar_drf {A} (p : prog T A) : nopar p -> drf p.
  Proof.
    induction p; simpl; try done; auto.
  Qed.
  Lemma nopar_bind {A B} (f : A -> prog T B) (p : prog T A) :
    nopar p -> (forall a, nopar (f a)) -> nopar (pbind f p).
  Proof.
    revert B f. induction p; intros B f Hp Hf; simpl in *; try done; auto.
  Qed.

  (** ** Frame properties of sequential execution *)
  Lemma run_frame {A} R W (p : prog T A) m l v :
    acc_in R W p -> ~ R l -> ~ W l ->
    run p (<[l := v]> m) =
    match run p m with Ok (a, m') => Ok (a, <[l := v]> m') | Fail e => Fail e end.
  Proof.
    intros Hacc HR HW. revert m Hacc.
    induction p as [A a|A e|A l' k IH|A l' v' k IH|A l' v' k IH|A p IHp q IHq k IHk];
      intros m Hacc; simpl in *; try done.
    - destruct Hacc as [Hl Hk].
      assert (l <> l') by (intros ->; destruct Hl; auto).
      rewrite lookup_insert_ne by done. by apply IH.
    - destruct Hacc as [Hl Hk].
      assert (l <> l') by (intros ->; auto).
      rewrite lookup_insert_ne by done. destruct (m !! l').
      + rewrite insert_commute by done. by rewrite IH.
      + by rewrite IH.
    - destruct Hacc as [Hl Hk].
      assert (l <> l') by (intros ->; auto).
      rewrite insert_commute by done. by rewrite IH.
    - destruct Hacc as (Hp & Hq & Hk).
      rewrite IHp by done. destruct (run p m) as [[? m1]|]; [|done].
      rewrite IHq by done. destruct (run q m1) as [[? m2]|]; [|done].
      by rewrite IHk.
  Qed.

  Lemma run_unchanged {A} R W (p : prog T A) m a m' l :
    acc_in R W p -> run p m = Ok (a, m') -> ~ W l -> m' !! l = m !! l.
  Proof.
    intros Hacc Hrun HW. revert m m' a Hacc Hrun.
    induction p as [A a|A e|A l' k IH|A l' v' k IH|A l' v' k IH|A p IHp q IHq k IHk];
      intros m m' a' Hacc Hrun; simpl in *; try done.
    - by inversion Hrun.
    - destruct Hacc as [? Hk]. by eapply IH.
    - destruct Hacc as [? Hk]. assert (l' <> l) by (intros ->; auto).
      destruct (m !! l').
      + erewrite IH; [|by apply Hk|done]. by rewrite lookup_insert_ne.
      + by eapply IH.
    - destruct Hacc as [? Hk]. assert (l' <> l) by (intros ->; auto).
      erewrite IH; [|by apply Hk|done]. by rewrite lookup_insert_ne.
    - destruct Hacc as (Hp & Hq & Hk).
      destruct (run p m) as [[? m1]|] eqn:E1; [|done].
      destruct (run q m1) as [[? m2]|] eqn:E2; [|done].
      erewrite IHk, IHq, IHp; eauto.
  Qed.

  (** A step touches one cell, and can be replayed in a memory that agrees on
      the footprint. *)
  Lemma step_local {A} R W (p : prog T A) m p' m' m1 :
    step A p m p' m' -> acc_in R W p ->
    (forall l, R l \/ W l -> m1 !! l = m !! l) ->
    (m' = m /\ step A p m1 p' m1) \/
    (exists l v, W l /\ m' = <[l := v]> m /\ step A p m1 p' (<[l := v]> m1)).
  Proof.
    intros Hs. revert R W m1.
    induction Hs as [A l k m|A l v k m w H|A l v k m H|A l v k m|A p p' q k m m' Hs IH|A p q q' k m m' Hs IH|A k m|A e q k m|A e p k m];
      intros R W m1 Hacc Hag; simpl in *.
    - left. split; [done|]. rewrite <- (Hag l) by tauto. constructor.
    - right. exists l, v. split_and!; [tauto|done|]. econstructor. by rewrite Hag by tauto.
    - left. split; [done|]. constructor. by rewrite Hag by tauto.
    - right. exists l, v. split_and!; [tauto|done|]. constructor.
    - destruct Hacc as (?&?&?).
      destruct (IH R W m1) as [[-> ?]|(l&v&?&->&?)]; try done.
      + left. split; [done|]. by constructor.
      + right. exists l, v. split_and!; try done. by constructor.
    - destruct Hacc as (?&?&?).
      destruct (IH R W m1) as [[-> ?]|(l&v&?&->&?)]; try done.
      + left. split; [done|]. by constructor.
      + right. exists l, v. split_and!; try done. by constructor.
    - left; split; [done|constructor].
    - left; split; [done|constructor].
    - left; split; [done|constructor].
  Qed.

  Lemma step_acc_in {A} R W (p : prog T A) m p' m' :
    step A p m p' m' -> acc_in R W p -> acc_in R W p'.
  Proof. intros Hs; induction Hs; simpl in *; naive_solver. Qed.

  Lemma step_drf {A} (p : prog T A) m p' m' :
    step A p m p' m' -> drf p -> drf p'.
  Proof.
    intros Hs; induction Hs; simpl in *; try naive_solver.
    - intros ((Rp&Wp&Rq&Wq&?&?&?&?)&?&?&?). split_and!; auto.
      exists Rp, Wp, Rq, Wq. split_and!; auto. by eapply step_acc_in.
    - intros ((Rp&Wp&Rq&Wq&?&?&?&?)&?&?&?). split_and!; auto.
      exists Rp, Wp, Rq, Wq. split_and!; auto. by eapply step_acc_in.
  Qed.

  (** Sequential success is invariant under every step of every thread. *)
  Lemma step_run {A} (p : prog T A) m p' m' r :
    step A p m p' m' -> drf p -> run p m = Ok r -> run p' m' = Ok r.
  Proof.
    revert m p' m' r.
    induction p as [A a|A e|A l k IH|A l v k IH|A l v k IH|A p IHp q IHq k IHk];
      intros m p' m' r Hs Hdrf Hrun; inversion Hs; subst; simpl in *; simplify_eq; try done.
    - match goal with H : _ !! _ = _ |- _ => by rewrite H in Hrun end.
    - match goal with H : _ !! _ = _ |- _ => by rewrite H in Hrun end.
    - destruct Hdrf as (_ & Hp & _ & _).
      destruct (run p m) as [[u m1]|] eqn:E; [|done].
      match goal with H : step unit p _ _ _ |- _ => by rewrite (IHp _ _ _ _ H Hp E) end.
    - destruct Hdrf as ((Rp&Wp&Rq&Wq&Ap&Aq&D1&D2) & Hp & Hq & _).
      destruct (run p m) as [[u m1]|] eqn:E; [|done].
      destruct (run q m1) as [[u' m2]|] eqn:E2; [|done].
      assert (Hag : forall l, Rq l \/ Wq l -> m1 !! l = m !! l).
      { intros l Hl. eapply (run_unchanged Rp Wp); [done..|]. intros ?; by eapply D1. }
      match goal with H : step unit q _ _ _ |- _ =>
        destruct (step_local _ _ _ _ _ _ _ H Aq Hag) as [[-> Hs']|(l&v&Hl&->&Hs')] end.
      + rewrite E. by rewrite (IHq _ _ _ _ Hs' Hq E2).
      + erewrite run_frame; [|done|by intros ?; eapply D2; eauto..].
        rewrite E. by rewrite (IHq _ _ _ _ Hs' Hq E2).
    - by repeat case_match.
  Qed.

  Lemma step_run_fail {A} (p : prog T A) m p' m' e :
    step A p m p' m' -> drf p -> run p m = Fail e -> exists e', run p' m' = Fail e'.
  Proof.
    revert m p' m' e.
    induction p as [A a|A e|A l k IH|A l v k IH|A l v k IH|A p IHp q IHq k IHk];
      intros m p' m' r Hs Hdrf Hrun; inversion Hs; subst; simpl in *; simplify_eq; eauto.
    - match goal with H : _ !! _ = _ |- _ => rewrite H in Hrun end; eauto.
    - match goal with H : _ !! _ = _ |- _ => rewrite H in Hrun end; eauto.
    - destruct Hdrf as (_ & Hp & _ & _).
      destruct (run p m) as [[u m1]|] eqn:E.
      + erewrite step_run; [|done..]. eauto.
      + match goal with H : step unit p _ _ _ |- _ => destruct (IHp _ _ _ _ H Hp E) as [e' ->] end. eauto.
    - destruct Hdrf as ((Rp&Wp&Rq&Wq&Ap&Aq&D1&D2) & Hp & Hq & _).
      destruct (run p m) as [[u m1]|] eqn:E.
      + assert (Hag : forall l, Rq l \/ Wq l -> m1 !! l = m !! l).
        { intros l Hl. eapply (run_unchanged Rp Wp); [done..|]. intros ?; by eapply D1. }
        match goal with H : step unit q _ _ _ |- _ =>
          destruct (step_local _ _ _ _ _ _ _ H Aq Hag) as [[-> Hs']|(l&v&Hl&->&Hs')] end.
        * rewrite E. destruct (run q m1) as [[u' m2]|] eqn:E2.
          -- erewrite step_run; [|done..]. eauto.
          -- destruct (IHq _ _ _ _ Hs' Hq E2) as [e' ->]. eauto.
        * erewrite run_frame; [|done|by intros ?; eapply D2; eauto..].
          rewrite E. destruct (run q m1) as [[u' m2]|] eqn:E2.
          -- erewrite step_run; [|done..]. eauto.
          -- destruct (IHq _ _ _ _ Hs' Hq E2) as [e' ->]. eauto.
      + match goal with H : step unit q _ _ _ |- _ =>
          destruct (step_local _ _ _ _ _ _ m H Aq (fun _ _ => eq_refl)) as [[-> Hs']|(l&v&Hl&->&Hs')] end.
        * rewrite E. eauto.
        * erewrite run_frame; [|done|by intros ?; eapply D2; eauto..]. rewrite E; eauto.
  Qed.

  (** ** Progress and termination *)
  Definition terminal {A} (p : prog T A) : Prop :=
    match p with Ret _ | Err _ => True | _ => False end.

  Lemma progress {A} (p : prog T A) m : terminal p \/ exists p' m', step A p m p' m'.
  Proof.
    revert m. induction p as [A a|A e|A l k IH|A l v k IH|A l v k IH|A p IHp q IHq k IHk];
      intros m; simpl; auto; right.
    - eexists _, _; constructor.
    - destruct (m !! l) eqn:E; eexists _, _; econstructor; done.
    - eexists _, _; constructor.
    - destruct (IHp m) as [Hp|(p'&m'&Hs)]; [|by eexists _, _; constructor].
      destruct (IHq m) as [Hq|(q'&m'&Hs)]; [|by eexists _, _; apply step_par_r].
      destruct p as [[]|e| | | |]; try done; [|eexists _, _; apply step_err_l].
      destruct q as [[]|e| | | |]; try done; eexists _, _; [apply step_join|apply step_err_r].
  Qed.

  (** The successor relation, forgetting memories, is well-founded. *)
  Definition next {A} (p' p : prog T A) : Prop := exists m m', step A p m p' m'.

  Lemma next_terminal {A} (p : prog T A) : terminal p -> Acc next p.
  Proof. intros Hp. constructor. intros p' (m&m'&Hs).
    destruct p; simpl in Hp; try contradiction; inversion Hs. Qed.

  Lemma next_wf {A} (p : prog T A) : Acc next p.
  Proof.
    induction p as [A a|A e|A l k IH|A l v k IH|A l v k IH|A p IHp q IHq k IHk].
    - apply next_terminal; exact I.
    - apply next_terminal; exact I.
    - constructor. intros p' (m&m'&Hs). inversion Hs; subst; auto.
    - constructor. intros p' (m&m'&Hs). inversion Hs; subst; auto.
    - constructor. intros p' (m&m'&Hs). inversion Hs; subst; auto.
    - revert q IHq. induction IHp as [p _ IHp]. intros q IHq.
      induction IHq as [q Hq IHq].
      constructor. intros p' (m&m'&Hs).
      inversion Hs; subst; auto.
      + apply IHp; [eexists _, _; eassumption|]. constructor; exact Hq.
      + apply IHq. eexists _, _; eassumption.
      + apply next_terminal; exact I.
      + apply next_terminal; exact I.
  Qed.

  (** ** Race freedom *)
  Lemma head_acc_in {A} R W (p : prog T A) l w :
    acc_in R W p -> head p l w -> (if w then W l else R l \/ W l).
  Proof.
    revert l w. induction p as [A a|A e|A l' k IH|A l' v k IH|A l' v k IH|A p IHp q IHq k IHk];
      intros l w Hacc Hh; simpl in *; try done.
    - destruct Hh as [-> ->]. tauto.
    - destruct Hh as [-> ->]. tauto.
    - destruct Hh as [-> ->]. tauto.
    - destruct Hacc as (?&?&?). destruct Hh; [by apply IHp|by apply IHq].
  Qed.

  Lemma drf_no_race {A} (p : prog T A) l : drf p -> ~ races p l.
  Proof.
    induction p as [A a|A e|A l' k IH|A l' v k IH|A l' v k IH|A p IHp q IHq k IHk];
      simpl; try tauto.
    intros ((Rp&Wp&Rq&Wq&Ap&Aq&D1&D2) & Hp & Hq & _) [(w1&w2&H1&H2&Hw)|[Hr|Hr]];
      [|by apply IHp|by apply IHq].
    pose proof (head_acc_in _ _ _ _ _ Ap H1) as H1'.
    pose proof (head_acc_in _ _ _ _ _ Aq H2) as H2'.
    destruct w1.
    - apply (D1 l); [done|]. destruct w2; auto.
    - destruct w2; [|done]. apply (D2 l); [done|]. auto.
  Qed.

  (** ** The main theorem *)
  Theorem drf_must {A} (p : prog T A) m (a : A) m' (Q : A -> mem T -> Prop) :
    drf p -> run p m = Ok (a, m') -> Q a m' -> must (fun _ => False) Q p m.
  Proof.
    intros Hd Hr HQ. revert m Hd Hr. induction (next_wf p) as [p _ IH]. intros m Hd Hr.
    destruct (progress p m) as [Hp|Hs].
    - destruct p; try done. simpl in Hr. simplify_eq. by constructor.
    - apply must_step; [|done|].
      + intros l Hl. by eapply drf_no_race.
      + intros p' m1 Hs'. eapply IH.
        * by exists m, m1.
        * by eapply step_drf.
        * by eapply step_run.
  Qed.

  Lemma step_err_in {A} E (p : prog T A) m p' m' :
    step A p m p' m' -> err_in E p -> err_in E p'.
  Proof. intros Hs; induction Hs; simpl in *; naive_solver. Qed.
  Lemma err_in_bind {A B} E (f : A -> prog T B) (p : prog T A) :
    err_in E p -> (forall a, err_in E (f a)) -> err_in E (pbind f p).
  Proof. revert B f. induction p; intros B f Hp Hf; simpl in *; naive_solver. Qed.

  Theorem drf_must_fail {A} (E : err -> Prop) (p : prog T A) m e :
    drf p -> err_in E p -> run p m = Fail e -> must_fail E p m.
  Proof.
    intros Hd. revert m e Hd. induction (next_wf p) as [p _ IH]. intros m e Hd HE Hr.
    destruct (progress p m) as [Hp|Hs].
    - destruct p; try done. by constructor.
    - apply mf_step; [done|]. intros p' m1 Hs'.
      destruct (step_run_fail _ _ _ _ _ Hs' Hd Hr) as [e' He'].
      eapply IH; [by exists m, m1|by eapply step_drf|by eapply step_err_in|done].
  Qed.

  Lemma must_fail_steps {A} (E : err -> Prop) (p : prog T A) m p' m' :
    must_fail E p m -> steps A p m p' m' -> must_fail E p' m'.
  Proof.
    intros Hm Hs. induction Hs as [|p m p1 m1 p2 m2 Hs _ IH]; [done|].
    apply IH. destruct Hm as [e m He|p m _ Hk]; [inversion Hs|by apply Hk].
  Qed.

  Theorem always_intro {A} (p : prog T A) (a : A) m' (Q : A -> Prop) :
    drf p -> run p ∅ = Ok (a, m') -> Q a -> always p Q.
  Proof. intros. by eapply drf_must. Qed.

  (** ** Schedules that run sequentially *)
  Lemma steps_trans {A} (p1 p2 p3 : prog T A) m1 m2 m3 :
    steps A p1 m1 p2 m2 -> steps A p2 m2 p3 m3 -> steps A p1 m1 p3 m3.
  Proof. induction 1; [done|]. intros. econstructor; eauto. Qed.
  Lemma steps_par_l {A} p p' q (k : prog T A) m m' :
    steps unit p m p' m' -> steps A (Par p q k) m (Par p' q k) m'.
  Proof. induction 1; [constructor|]. econstructor; [by apply step_par_l|done]. Qed.
  Lemma steps_par_r {A} p q q' (k : prog T A) m m' :
    steps unit q m q' m' -> steps A (Par p q k) m (Par p q' k) m'.
  Proof. induction 1; [constructor|]. econstructor; [by apply step_par_r|done]. Qed.

  Lemma run_steps {A} (p : prog T A) m :
    match run p m with
    | Ok (a, m') => steps A p m (Ret a) m'
    | Fail e => exists m', steps A p m (Err e) m'
    end.
  Proof.
    revert m. induction p as [A a|A e|A l k IH|A l v k IH|A l v k IH|A p IHp q IHq k IHk];
      intros m; simpl.
    - constructor.
    - exists m; constructor.
    - specialize (IH (m !! l) m). destruct (run (k (m !! l)) m) as [[? ?]|].
      + econstructor; [constructor|done].
      + destruct IH as [m' IH]. exists m'. econstructor; [constructor|done].
    - destruct (m !! l) eqn:E.
      + specialize (IH true (<[l:=v]> m)). destruct (run _ _) as [[? ?]|].
        * econstructor; [by econstructor|done].
        * destruct IH as [m' IH]. exists m'. econstructor; [by econstructor|done].
      + specialize (IH false m). destruct (run _ _) as [[? ?]|].
        * econstructor; [by eapply step_wr_oob|done].
        * destruct IH as [m' IH]. exists m'. econstructor; [by eapply step_wr_oob|done].
    - specialize (IH (<[l:=v]> m)). destruct (run _ _) as [[? ?]|].
      + econstructor; [by econstructor|done].
      + destruct IH as [m' IH]. exists m'. econstructor; [by econstructor|done].
    - specialize (IHp m). destruct (run p m) as [[[] m1]|e].
      + specialize (IHq m1). destruct (run q m1) as [[[] m2]|e].
        * specialize (IHk m2).
          assert (steps A (Par p q k) m k m2) as Hs.
          { eapply steps_trans; [by apply steps_par_l|].
            eapply steps_trans; [by apply steps_par_r|].
            econstructor; [apply step_join|constructor]. }
          destruct (run k m2) as [[? ?]|].
          -- by eapply steps_trans.
          -- destruct IHk as [m' ?]. exists m'. by eapply steps_trans.
        * destruct IHq as [m' IHq]. exists m'.
          eapply steps_trans; [by apply steps_par_l|].
          eapply steps_trans; [by apply steps_par_r|].
          econstructor; [apply step_err_r|constructor].
      + destruct IHp as [m' IHp]. exists m'.
        eapply steps_trans; [by apply steps_par_l|].
        econstructor; [apply step_err_l|constructor].
  Qed.

  Lemma run_may_fail {A} (p : prog T A) m e : run p m = Fail e -> may_fail p m e.
  Proof. intros H. pose proof (run_steps p m) as Hs. rewrite H in Hs. done. Qed.

  (** ** Consequence for observers: all results are equal *)
  Lemma must_steps {A} (tol : loc -> Prop) (Q : A -> mem T -> Prop) (p : prog T A) m (p' : prog T A) m' :
    must tol Q p m -> steps A p m p' m' -> must tol Q p' m'.
  Proof.
    intros Hm Hs. induction Hs as [|p m p1 m1 p2 m2 Hs _ IH]; [done|].
    apply IH. destruct Hm as [a m Ha|p m _ _ Hk]; [inversion Hs|by apply Hk].
  Qed.
  Lemma must_mono {A} (tol : loc -> Prop) (Q Q' : A -> mem T -> Prop) (p : prog T A) m :
    (forall a m, Q a m -> Q' a m) -> must tol Q p m -> must tol Q' p m.
  Proof. intros HQ. induction 1; [constructor; auto|]. apply must_step; auto. Qed.
  Lemma must_ret_inv {A} (tol : loc -> Prop) (Q : A -> mem T -> Prop) (a : A) m : must tol Q (Ret a) m -> Q a m.
  Proof. inversion 1; subst; [done|]. destruct H1 as (?&?&Hs). inversion Hs. Qed.
  Lemma must_no_err {A} (tol : loc -> Prop) (Q : A -> mem T -> Prop) (e : err) m : ~ must tol Q (Err e) m.
  Proof. inversion 1; subst. destruct H1 as (?&?&Hs). inversion Hs. Qed.

  Lemma must_fail_no_ret {A} (E : err -> Prop) (a : A) (m : mem T) : ~ must_fail E (Ret a) m.
  Proof. inversion 1; subst. destruct H0 as (?&?&Hs). inversion Hs. Qed.
  Lemma err_in_True {A} (p : prog T A) : err_in (fun _ => True) p.
  Proof. induction p; simpl; auto. Qed.
  (** Race-free programs: whatever a schedule returns, the sequential run returns. *)
  Lemma drf_return {A} (p : prog T A) m a m' :
    drf p -> steps A p m (Ret a) m' -> run p m = Ok (a, m').
  Proof.
    intros Hd Hs. destruct (run p m) as [[a1 m1]|e] eqn:E.
    - pose proof (drf_must p m a1 m1 (fun a m => a = a1 /\ m = m1) Hd E (conj eq_refl eq_refl)) as Hm.
      eapply must_steps in Hm; [|done]. apply must_ret_inv in Hm as [-> ->]. done.
    - pose proof (drf_must_fail (fun _ => True) p m e Hd (err_in_True p) E) as Hm.
      eapply must_fail_steps in Hm; [|done]. by apply must_fail_no_ret in Hm.
  Qed.
End Facts.
