(** Removing the accesses to one flag from a program: if the program without
    them is correct on every schedule, so is the program with them, up to races
    on the flag itself. *)
From Verif Require Import Conc ConcFacts LoopFacts MIter.

Section Erase.
  Context {T : Type} (F : loc).

  (** [er p q]: q is p without the accesses to F; p only stores flags in F and
      whatever it reads there leads to the same q. *)
  Inductive er (A : Type) : prog T A -> prog T A -> Prop :=
  | er_ret a : er A (Ret a) (Ret a)
  | er_err e : er A (Err e) (Err e)
  | er_rd l k k' : l <> F -> (forall v, er A (k v) (k' v)) -> er A (Rd l k) (Rd l k')
  | er_wr l v k k' : l <> F -> (forall ok, er A (k ok) (k' ok)) -> er A (Wr l v k) (Wr l v k')
  | er_alloc l v k k' : l <> F -> er A k k' -> er A (Alloc l v k) (Alloc l v k')
  | er_par p q k p' q' k' : er unit p p' -> er unit q q' -> er A k k' -> er A (Par p q k) (Par p' q' k')
  | er_skip_rd k q : (forall f, er A (k (Some (VF f))) q) -> er A (Rd F k) q
  | er_skip_wr f k q : er A (k true) q -> er A (Wr F (VF f) k) q.

  Definition simF (mp mq : mem T) : Prop :=
    (exists f, mp !! F = Some (VF f)) /\ forall l, l <> F -> mp !! l = mq !! l.

  Lemma er_head {A} (p q : prog T A) l w : er A p q -> l <> F -> head p l w -> head q l w.
  Proof.
    intros He Hl. revert w. induction He; intros w; simpl; try done.
    - intros [?|?]; [left; by apply IHHe1|right; by apply IHHe2].
    - by intros [-> _].
    - by intros [-> _].
  Qed.
  Lemma er_races {A} (p q : prog T A) l : er A p q -> l <> F -> races p l -> races q l.
  Proof.
    intros He Hl. induction He; simpl; try done.
    intros [(w1&w2&H1&H2&Hw)|[Hr|Hr]].
    - left. exists w1, w2. split_and!; [by eapply er_head|by eapply er_head|done].
    - right; left; auto.
    - right; right; auto.
  Qed.
  Lemma er_step {A} (p p' : prog T A) mp mp' q mq :
    step A p mp p' mp' -> er A p q -> simF mp mq ->
    (er A p' q /\ simF mp' mq) \/ exists q' mq', step A q mq q' mq' /\ er A p' q' /\ simF mp' mq'.
  Proof.
    intros Hs. revert q mq.
    induction Hs as [A l k m|A l v k m w Hw|A l v k m Hw|A l v k m|A p p' r k m m' Hs IH|A p r r' k m m' Hs IH|A k m|A e r k m|A e p k m]; intros q mq He Hm.
    - inversion He as [| |? ? ? Hl Hk| | | |? ? Hk|]; subst.
      + right. eexists _, _. split; [constructor|]. destruct Hm as [Hf Hm]. rewrite (Hm l Hl). split; [apply Hk|by split].
      + left. destruct Hm as [[f Hf] Hm]. rewrite Hf. split; [apply Hk|]. split; [by exists f|done].
    - inversion He as [| | |? ? ? ? Hl Hk| | | |? ? ? Hk]; subst.
      + right. destruct Hm as [[f Hf] Hm]. eexists _, _. split; [eapply step_wr; by rewrite <- Hm|]. split; [apply Hk|]. split.
        * exists f. by rewrite lookup_insert_ne.
        * intros l' Hl'. destruct (decide (l = l')) as [->|Hne]; [by rewrite !lookup_insert|]. by rewrite !lookup_insert_ne, Hm.
      + left. split; [apply Hk|]. destruct Hm as [_ Hm]. split; [eexists; apply lookup_insert|]. intros l' Hl'. by rewrite lookup_insert_ne, Hm.
    - inversion He as [| | |? ? ? ? Hl Hk| | | |? ? ? Hk]; subst.
      + right. destruct Hm as [[f Hf] Hm]. eexists _, _. split; [eapply step_wr_oob; by rewrite <- Hm|]. split; [apply Hk|].
        split; [by exists f|done].
      + destruct Hm as [[g Hg] _]. by rewrite Hg in Hw.
    - inversion He as [| | | |? ? ? ? Hl Hk| | |]; subst.
      right. destruct Hm as [[f Hf] Hm]. eexists _, _. split; [constructor|]. split; [apply Hk|]. split.
      + exists f. by rewrite lookup_insert_ne.
      + intros l' Hl'. destruct (decide (l = l')) as [->|Hne]; [by rewrite !lookup_insert|]. by rewrite !lookup_insert_ne, Hm.
    - inversion He as [| | | | |? ? ? p0 q0 k0 E1 E2 E3| |]; subst. destruct (IH p0 mq E1 Hm) as [[H1 H2]|(q'&mq'&H1&H2&H3)].
      + left. split; [by constructor|done].
      + right. eexists _, _. split; [by apply step_par_l|]. split; [by constructor|done].
    - inversion He as [| | | | |? ? ? p0 q0 k0 E1 E2 E3| |]; subst. destruct (IH q0 mq E2 Hm) as [[H1 H2]|(q'&mq'&H1&H2&H3)].
      + left. split; [by constructor|done].
      + right. eexists _, _. split; [by apply step_par_r|]. split; [by constructor|done].
    - inversion He as [| | | | |? ? ? p0 q0 k0 E1 E2 E3| |]; subst. inversion E1; subst. inversion E2; subst.
      right. eexists _, _. split; [apply step_join|]. done.
    - inversion He as [| | | | |? ? ? p0 q0 k0 E1 E2 E3| |]; subst. inversion E1; subst.
      right. eexists _, _. split; [apply step_err_l|]. split; [constructor|done].
    - inversion He as [| | | | |? ? ? p0 q0 k0 E1 E2 E3| |]; subst. inversion E2; subst.
      right. eexists _, _. split; [apply step_err_r|]. split; [constructor|done].
  Qed.

  Theorem must_erase {A} (tol : loc -> Prop) (Q : A -> Prop) (p q : prog T A) mp mq :
    must tol (fun a _ => Q a) q mq -> er A p q -> simF mp mq ->
    must (fun l => tol l \/ l = F) (fun a _ => Q a) p mp.
  Proof.
    intros Hq. revert p mp. induction Hq as [a mq HQ|q mq Hrace Hex Hall IH]; intros p.
    - pose proof (next_wf p) as Hacc. induction Hacc as [p _ IHp]. intros mp He Hm.
      inversion He as [? E| | | | | |k ? Hk|f k ? Hk]; subst.
      + by apply must_ret.
      + apply must_step; [by intros ? []|destruct Hm as [[f Hf] _]; eexists _, _; constructor|].
        intros p' m' Hs. destruct (er_step _ _ _ _ _ _ Hs He Hm) as [[H1 H2]|(?&?&H1&_)]; [|inversion H1].
        apply IHp; [by exists mp, m'|done|done].
      + apply must_step; [by intros ? []|destruct Hm as [[g Hg] _]; eexists _, _; by eapply step_wr|].
        intros p' m' Hs. destruct (er_step _ _ _ _ _ _ Hs He Hm) as [[H1 H2]|(?&?&H1&_)]; [|inversion H1].
        apply IHp; [by exists mp, m'|done|done].
    - pose proof (next_wf p) as Hacc. induction Hacc as [p _ IHp]. intros mp He Hm. apply must_step.
      + intros l Hl. destruct (decide (l = F)) as [->|Hne]; [by right|left]. apply Hrace. by eapply er_races.
      + destruct (progress p mp) as [Ht|Ht]; [|done]. destruct Hex as (q'&mq'&Hs).
        destruct p; simpl in Ht; try done; inversion He; subst; inversion Hs.
      + intros p' m' Hs. destruct (er_step _ _ _ _ _ _ Hs He Hm) as [[H1 H2]|(q'&mq'&H1&H2&H3)].
        * apply IHp; [by exists mp, m'|done|done].
        * by eapply IH.
  Qed.

  (** ** Building erasures *)
  Lemma er_bind {A B} (f g : A -> prog T B) (p q : prog T A) :
    er A p q -> (forall a, er B (f a) (g a)) -> er B (pbind f p) (pbind g q).
  Proof.
    intros He. revert B f g. induction He; intros B0 f0 g0 Hf; simpl; try (constructor; auto; done); auto.
  Qed.
  Lemma er_refl {A} (R W : loc -> Prop) (p : prog T A) : acc_in R W p -> (forall l, R l \/ W l -> l <> F) -> er A p p.
  Proof.
    intros Hp HF. induction p as [A a|A e|A l k IH|A l v k IH|A l v k IH|A p IHp q IHq k IHk]; simpl in Hp.
    - constructor.
    - constructor.
    - destruct Hp as [Hl Hk]. constructor; auto.
    - destruct Hp as [Hl Hk]. constructor; auto.
    - destruct Hp as [Hl Hk]. constructor; auto.
    - destruct Hp as (?&?&?). constructor; auto.
  Qed.
  Lemma er_foldP {S X} (l : list X) (f g : X -> S -> prog T S) s :
    (forall x s, er S (f x s) (g x s)) -> er S (foldP l f s) (foldP l g s).
  Proof.
    intros Hf. revert s. induction l as [|x l IH]; intros s; simpl; [constructor|]. apply er_bind; [apply Hf|]. intros s'. apply IH.
  Qed.
  Lemma er_forS {S} lo hi st (f g : nat -> S -> prog T S) s :
    (forall x s, er S (f x s) (g x s)) -> er S (forS lo hi st f s) (forS lo hi st g s).
  Proof.
    intros Hf. unfold forS. destruct (_ && _); [|by apply er_foldP]. apply er_bind; [apply Hf|]. intros _. constructor.
  Qed.
  Lemma er_parL {X} (l : list X) (f g : X -> prog T unit) :
    (forall x, er unit (f x) (g x)) -> er unit (parL l f) (parL l g).
  Proof. intros Hf. induction l as [|x l IH]; simpl; constructor; [apply Hf|done|constructor]. Qed.
  Lemma er_ofres {X} (r : res X) : er X (ofres r) (ofres r).
  Proof. destruct r; constructor. Qed.
  Lemma er_execute_looped dim cur mn mx st (f g : list nat -> prog T unit) args :
    (forall p, er unit (f p) (g p)) -> er unit (execute_looped dim cur mn mx st f args) (execute_looped dim cur mn mx st g args).
  Proof.
    intros Hf. revert cur args. induction dim as [|dim IH]; intros cur args; cbn [execute_looped]; [apply Hf|].
    do 3 (apply er_bind; [apply er_ofres|]; intros ?). apply er_forS. intros x _. apply IH.
  Qed.
  Lemma er_iterate dim conf mn mx (f g : list nat -> prog T unit) :
    (forall p, er unit (f p) (g p)) -> er unit (iterate_conf dim conf mn mx f) (iterate_conf dim conf mn mx g).
  Proof.
    intros Hf. revert mn mx. induction conf as [|[bl pd] conf IH]; intros mn mx; cbn [iterate_conf]; (case_match; [constructor|]); [constructor|].
    destruct conf as [|c conf]; [by apply er_execute_looped|].
    do 8 (apply er_bind; [apply er_ofres|]; intros ?). apply er_parL. intros part.
    do 4 (apply er_bind; [apply er_ofres|]; intros ?). apply er_foldP. intros cur _.
    apply er_bind; [apply er_ofres|]. intros ?. apply IH.
  Qed.
End Erase.
