(** Proof tools for the experiment kernels: programs that cannot return, local
    arrays of any element type, a preloaded shared buffer, and loops over
    blocks of it. *)
From Verif Require Import Tools Tools2 MExp.
From Verif Require Export ConcFacts.

(** ** Programs without a path to [Ret]: every schedule fails *)
Section NoRet.
  Context {T : Type}.
  Fixpoint noret {A} (p : prog T A) : Prop :=
    match p with
    | Ret _ => False
    | Err _ => True
    | Rd _ k => forall v, noret (k v)
    | Wr _ _ k => forall b, noret (k b)
    | Alloc _ _ k => noret k
    | Par p q k => noret p \/ noret q \/ noret k
    end.
  Lemma noret_step {A} (p : prog T A) m p' m' : step A p m p' m' -> noret p -> noret p'.
  Proof.
    induction 1 as [A l k m|A l v k m w Hm|A l v k m Hm|A l v k m|A p p' q k m m' Hs IH|A p q q' k m m' Hs IH|A k m|A e q k m|A e p k m];
      simpl; intros Hn; auto.
    - destruct Hn as [?|[?|?]]; auto.
    - destruct Hn as [?|[?|?]]; auto.
    - destruct Hn as [?|[?|?]]; done.
  Qed.
  Theorem noret_must_fail {A} (E : err -> Prop) (p : prog T A) m :
    noret p -> errD E p -> datm m -> must_fail E p m.
  Proof.
    revert m. induction (next_wf p) as [p _ IH]. intros m Hn He Hm.
    destruct (progress p m) as [Hp|Hs].
    - destruct p; try done. by constructor.
    - apply mf_step; [done|]. intros p' m1 Hs'. destruct (step_errD E p m p' m1 Hs' Hm He).
      apply IH; [by exists m, m1|by eapply noret_step|done|done].
  Qed.
  Lemma noret_bind_l {A B} (f : A -> prog T B) (p : prog T A) : noret p -> noret (pbind f p).
  Proof. revert B f. induction p; intros B' f Hp; simpl in *; try done; auto. destruct Hp as [?|[?|?]]; auto. Qed.
  Lemma noret_bind_r {A B} (f : A -> prog T B) (p : prog T A) : (forall a, noret (f a)) -> noret (pbind f p).
  Proof. revert B f. induction p; intros B' f Hf; simpl in *; try done; auto. Qed.
  Lemma noret_foldP {S X} (l : list X) (f : X -> S -> prog T S) s x :
    x ∈ l -> (forall s, noret (f x s)) -> noret (foldP l f s).
  Proof.
    intros Hx Hf. revert s. induction l as [|y l IH]; intros s; [by apply elem_of_nil in Hx|].
    apply elem_of_cons in Hx as [->|Hx]; simpl; [by apply noret_bind_l|].
    apply noret_bind_r. intros s'. by apply IH.
  Qed.
  Lemma noret_forS {S} lo hi st (f : nat -> S -> prog T S) s x :
    0 < st -> x ∈ rng lo hi st -> (forall s, noret (f x s)) -> noret (forS lo hi st f s).
  Proof. intros Hst Hx Hf. rewrite forS_step by done. by eapply noret_foldP. Qed.
  Lemma noret_parL {X} (l : list X) (f : X -> prog T unit) x :
    x ∈ l -> noret (f x) -> noret (parL l f).
  Proof.
    intros Hx Hf. induction l as [|y l IH]; [by apply elem_of_nil in Hx|].
    apply elem_of_cons in Hx as [->|Hx]; simpl; auto.
  Qed.
  Lemma noret_vget (v : list T) i : length v <= i -> noret (vget v i).
  Proof. intros Hi. unfold vget. by rewrite (proj2 (lookup_ge_None _ _)). Qed.
End NoRet.

(** ** Local arrays of any element type *)
Section Local.
  Context {T : Type}.
  Lemma foldP_applyG {X E : Type} n (l : list X) (f : X -> list E -> prog T (list E)) us s :
    length s = n ->
    (forall x s, x ∈ l -> length s = n -> f x s = Ret (applyL (us x) s)) ->
    foldP l f s = Ret (applyL (l ≫= us) s).
  Proof.
    revert s. induction l as [|x l IH]; intros s Hs Hf; [done|]. cbn [foldP].
    rewrite (Hf x s) by (done || by apply elem_of_cons; left). cbn [pbind].
    rewrite IH.
    - by rewrite bind_cons, applyL_app.
    - by rewrite length_applyL.
    - intros y s' Hy. apply Hf, elem_of_cons; by right.
  Qed.
  Lemma forS_applyG {E : Type} n lo hi st (f : nat -> list E -> prog T (list E)) us s :
    0 < st -> length s = n ->
    (forall x s, x ∈ rng lo hi st -> length s = n -> f x s = Ret (applyL (us x) s)) ->
    forS lo hi st f s = Ret (applyL (rng lo hi st ≫= us) s).
  Proof. intros Hst Hs Hf. rewrite forS_step by done. by apply (foldP_applyG n). Qed.
  (** Unit steps from zero. *)
  Lemma forS1_applyG {E : Type} n hi (f : nat -> list E -> prog T (list E)) us s :
    length s = n ->
    (forall x s, x < hi -> length s = n -> f x s = Ret (applyL (us x) s)) ->
    forS 0 hi 1 f s = Ret (applyL (seq 0 hi ≫= us) s).
  Proof.
    intros Hs Hf. rewrite (forS_applyG n _ _ _ _ us) by (try done; try lia;
      intros x s' Hx; apply Hf; apply rng_bounds in Hx; lia).
    by rewrite rng_1, Nat.sub_0_r.
  Qed.
  Lemma applyL_one {E : Type} i (f : E -> E) s : applyL [(i, f)] s = alter f i s.
  Proof. done. Qed.
End Local.

(** ** The preloaded buffer *)
Section Load.
  Context {T : Type} `{NumOps T}.
  Lemma run_vload (a : arr) (L : list T) m :
    exists m', run (vload a L) m = Ok (tt, m') /\ forall i x, L !! i = Some x -> m' !! ((a, i) : loc) = Some (VD x).
  Proof.
    unfold vload.
    assert (forall lo (L : list T) (m : mem T), exists m', run (foldP (zip (seq lo (length L)) L) (fun ix _ => Alloc (a, ix.1) (VD ix.2) (Ret tt)) tt) m = Ok (tt, m') /\
      (forall i x, L !! i = Some x -> m' !! ((a, lo + i) : loc) = Some (VD x)) /\
      (forall l : loc, l.2 < lo -> m' !! l = m !! l)) as Hx.
    { clear. intros lo L. revert lo. induction L as [|y L IH]; intros lo m.
      - exists m. done.
      - cbn [length seq zip zip_with foldP pbind run fst snd].
        destruct (IH (S lo) (<[((a, lo) : loc) := VD y]> m)) as (m'&Hr&H1&H2).
        exists m'. split; [exact Hr|]. split.
        + intros [|i] x Hi.
          * simpl in Hi. simplify_eq. rewrite H2 by (simpl; lia). rewrite Nat.add_0_r. apply lookup_insert.
          * replace (lo + S i) with (S lo + i) by lia. by apply H1.
        + intros [b j] Hj. rewrite H2 by (simpl in *; lia). apply lookup_insert_ne.
          intros [= -> ->]. simpl in Hj. lia. }
    destruct (Hx 0 L m) as (m'&Hr&H1&_). exists m'. done.
  Qed.
  Lemma nopar_vload (a : arr) (L : list T) : nopar (vload a L).
  Proof. apply nopar_foldP. done. Qed.

  Lemma run_with_C (C : list T) p us :
    does p us -> (forall u, u ∈ us -> exists i, u.1 = (cC, i) /\ i < length C) ->
    exists m', run (with_C C p) ∅ = Ok (imap (fun i x => fold_upd (contrib ((cC, i) : loc) us) x) C, m').
  Proof.
    intros Hd Hu. destruct (run_vload cC C ∅) as (m1&Hr1&H1).
    assert (present us m1) as Hp.
    { intros u Hin. destruct (Hu u Hin) as (i&Hi1&Hi).
      destruct (lookup_lt_is_Some_2 C i Hi) as [x Hx]. exists x. pose proof (H1 i x Hx) as Hy. rewrite <- Hi1 in Hy. exact Hy. }
    exists (applyM us m1). unfold with_C. rewrite run_bind, Hr1, run_bind, (Hd m1 Hp).
    apply run_vread.
    - by rewrite imap_length.
    - intros i Hi. destruct (lookup_lt_is_Some_2 C i Hi) as [x Hx].
      rewrite applyM_lookup, (H1 i x Hx), list_lookup_imap, Hx. done.
  Qed.
  Lemma drf_with_C (C : list T) p : drf p -> drf (with_C C p).
  Proof.
    intros Hp. unfold with_C. apply drf_bind; [apply nopar_drf, nopar_vload|]. intros _.
    apply drf_bind; [done|]. intros _. apply drf_vread.
  Qed.
  Lemma fail_with_C (C : list T) p : noret p -> errD (fun e => is_ub e = true) p -> always_ub (with_C C p).
  Proof.
    intros Hn He. unfold always_ub. apply noret_must_fail; [| |apply datm_empty].
    - apply noret_bind_r. intros _. by apply noret_bind_l.
    - apply errD_bind; [|intros _; apply errD_bind; [done|]; intros _; by apply errD_vread].
      apply errD_foldP. intros [i x] _ _. simpl. done.
  Qed.
End Load.

(** ** Loops over blocks of the buffer *)
Section Blocks.
  Context {T : Type} `{NumOps T}.
  Context (n bx by_ : nat) (C : list T).
  Context (Hbx : 0 < bx) (Hby : 0 < by_) (Hdx : (bx | n)) (Hdy : (by_ | n)) (HC : length C = n * n).

  Definition in_block (i j : nat) (l : loc) : Prop :=
    exists ii jj, ii < bx /\ jj < by_ /\ l = (cC, (i + ii) * n + (j + jj)).
  Definition corner (i j : nat) : Prop := i ∈ rng 0 n bx /\ j ∈ rng 0 n by_.

  Lemma corner_row i ii : i ∈ rng 0 n bx -> ii < bx -> i + ii < n.
  Proof. intros Hi Hii. apply elem_of_rng in Hi as (q&->&Hq); [|done]. simpl in *. by apply block_lt. Qed.
  Lemma corner_col j jj : j ∈ rng 0 n by_ -> jj < by_ -> j + jj < n.
  Proof. intros Hi Hii. apply elem_of_rng in Hi as (q&->&Hq); [|done]. simpl in *. by apply block_lt. Qed.
  Lemma find_row I : I < n -> exists i ii, i ∈ rng 0 n bx /\ ii < bx /\ I = i + ii.
  Proof.
    intros HI. exists (I / bx * bx), (I mod bx). pose proof (Nat.div_mod I bx). pose proof (Nat.mod_upper_bound I bx).
    split_and!; [|lia|lia]. apply elem_of_rng; [done|]. exists (I / bx). lia.
  Qed.
  Lemma find_col J : J < n -> exists j jj, j ∈ rng 0 n by_ /\ jj < by_ /\ J = j + jj.
  Proof.
    intros HI. exists (J / by_ * by_), (J mod by_). pose proof (Nat.div_mod J by_). pose proof (Nat.mod_upper_bound J by_).
    split_and!; [|lia|lia]. apply elem_of_rng; [done|]. exists (J / by_). lia.
  Qed.
  Lemma block_row_inj i ii i' ii' : i ∈ rng 0 n bx -> i' ∈ rng 0 n bx -> ii < bx -> ii' < bx ->
    i + ii = i' + ii' -> i = i' /\ ii = ii'.
  Proof.
    intros Hi Hi' Hii Hii' He. apply elem_of_rng in Hi as (q&->&_); [|done]. apply elem_of_rng in Hi' as (q'&->&_); [|done].
    simpl in *. apply mixed_inj in He as [-> ->]; done.
  Qed.
  Lemma block_col_inj j jj j' jj' : j ∈ rng 0 n by_ -> j' ∈ rng 0 n by_ -> jj < by_ -> jj' < by_ ->
    j + jj = j' + jj' -> j = j' /\ jj = jj'.
  Proof.
    intros Hi Hi' Hii Hii' He. apply elem_of_rng in Hi as (q&->&_); [|done]. apply elem_of_rng in Hi' as (q'&->&_); [|done].
    simpl in *. apply mixed_inj in He as [-> ->]; done.
  Qed.
  Lemma in_block_disjoint i j i' j' l : corner i j -> corner i' j' -> in_block i j l -> in_block i' j' l -> i = i' /\ j = j'.
  Proof.
    intros [Hi Hj] [Hi' Hj'] (ii&jj&Hii&Hjj&->) (ii'&jj'&Hii'&Hjj'&[= He]).
    apply mixed_inj in He as [E1 E2]; [|by apply corner_col|by apply corner_col].
    split; [by apply (block_row_inj i ii i' ii')|by apply (block_col_inj j jj j' jj')].
  Qed.

  Context (body : nat -> nat -> prog T unit) (us : nat -> nat -> list (loc * (T -> T))) (upd : nat -> nat -> T -> T).
  Context (Hdoes : forall i j, corner i j -> does (body i j) (us i j)).
  Context (Hin : forall i j u, corner i j -> u ∈ us i j -> in_block i j u.1).
  Context (Hupd : forall i j ii jj v, corner i j -> ii < bx -> jj < by_ ->
    fold_upd (contrib ((cC, (i + ii) * n + (j + jj)) : loc) (us i j)) v = upd (i + ii) (j + jj) v).
  Context (Hacc : forall i j, corner i j -> acc_in (fun _ => False) (in_block i j) (body i j)).
  Context (Hdrf : forall i j, corner i j -> drf (body i j)).

  Definition all_us : list (loc * (T -> T)) := rng 0 n bx ≫= fun i => rng 0 n by_ ≫= fun j => us i j.
  Lemma all_us_in u : u ∈ all_us -> exists p, u.1 = (cC, p) /\ p < length C.
  Proof.
    intros (i&(j&Hu&Hj)%elem_of_list_bind&Hi)%elem_of_list_bind.
    destruct (Hin i j u (conj Hi Hj) Hu) as (ii&jj&Hii&Hjj&Hl). eexists. split; [exact Hl|]. rewrite HC.
    apply mixed_lt; [by apply corner_row|by apply corner_col].
  Qed.
  Lemma all_us_contrib I J v : I < n -> J < n -> fold_upd (contrib ((cC, I * n + J) : loc) all_us) v = upd I J v.
  Proof.
    intros HI HJ. destruct (find_row I HI) as (i&ii&Hi&Hii&->). destruct (find_col J HJ) as (j&jj&Hj&Hjj&->).
    unfold all_us. rewrite contrib_bind, (bind_select _ _ i); [|by apply NoDup_rng|done|].
    - rewrite contrib_bind, (bind_select _ _ j); [by apply Hupd|by apply NoDup_rng|done|].
      intros j' Hj' Hne. apply contrib_none. intros u Hu Hl.
      apply (Hin i j' u (conj Hi Hj')) in Hu. rewrite Hl in Hu.
      destruct (in_block_disjoint i j' i j _ (conj Hi Hj') (conj Hi Hj) Hu); [|done]. by exists ii, jj.
    - intros i' Hi' Hne. apply contrib_none. intros u (j'&Hu&Hj')%elem_of_list_bind Hl.
      apply (Hin i' j' u (conj Hi' Hj')) in Hu. rewrite Hl in Hu.
      destruct (in_block_disjoint i' j' i j _ (conj Hi' Hj') (conj Hi Hj) Hu); [|done]. by exists ii, jj.
  Qed.
  Lemma blocks_result : is_matrix n (fun i j => upd i j (ent n C i j)) (imap (fun p x => fold_upd (contrib ((cC, p) : loc) all_us) x) C).
  Proof.
    split; [by rewrite imap_length|]. intros i j Hi Hj.
    rewrite list_lookup_imap, (ent_lookup_sq n C) by done. cbn. by rewrite all_us_contrib.
  Qed.
  Lemma does_row i : i ∈ rng 0 n bx -> does (forP 0 n by_ (body i)) (rng 0 n by_ ≫= fun j => us i j).
  Proof. intros Hi. apply does_forP; [done|]. intros j Hj. by apply Hdoes. Qed.
  Lemma acc_row i : i ∈ rng 0 n bx -> acc_in (fun _ => False) (fun l => exists j, j ∈ rng 0 n by_ /\ in_block i j l) (forP 0 n by_ (body i)).
  Proof.
    intros Hi. unfold forP. rewrite forS_step by done. apply acc_in_foldP. intros j _ Hj.
    eapply acc_in_mono; [| |by apply Hacc].
    - done.
    - intros l Hl. by exists j.
  Qed.
  Lemma drf_row i : i ∈ rng 0 n bx -> drf (forP 0 n by_ (body i)).
  Proof.
    intros Hi. unfold forP. rewrite forS_step by done. apply drf_foldP. intros j _ Hj. by apply Hdrf.
  Qed.
  Theorem blocks_par : always (with_C C (parL (rng 0 n bx) (fun i => forP 0 n by_ (body i))))
    (is_matrix n (fun i j => upd i j (ent n C i j))).
  Proof.
    destruct (run_with_C C (parL (rng 0 n bx) (fun i => forP 0 n by_ (body i))) all_us) as [m' Hr].
    - apply does_parL. apply does_row.
    - apply all_us_in.
    - eapply always_intro; [|exact Hr|exact blocks_result]. apply drf_with_C.
      apply (drf_parL _ _ (fun _ _ => False) (fun i l => exists j, j ∈ rng 0 n by_ /\ in_block i j l)).
      + by apply NoDup_rng.
      + apply drf_row.
      + apply acc_row.
      + intros i i' l Hi Hi' Hne (j&Hj&Hl) [[]|(j'&Hj'&Hl')].
        by destruct (in_block_disjoint i j i' j' l (conj Hi Hj) (conj Hi' Hj') Hl Hl').
  Qed.
  Theorem blocks_seq : always (with_C C (forP 0 n bx (fun i => forP 0 n by_ (body i))))
    (is_matrix n (fun i j => upd i j (ent n C i j))).
  Proof.
    destruct (run_with_C C (forP 0 n bx (fun i => forP 0 n by_ (body i))) all_us) as [m' Hr].
    - apply does_forP; [done|]. apply does_row.
    - apply all_us_in.
    - eapply always_intro; [|exact Hr|exact blocks_result]. apply drf_with_C.
      unfold forP at 1. rewrite forS_step by done. apply drf_foldP. intros i _ Hi. by apply drf_row.
  Qed.
End Blocks.

(** Blocks that are computed locally and then written back. *)
Section Written.
  Context {T : Type} `{NumOps T}.
  Context (n bx by_ : nat) (C : list T).
  Context (Hbx : 0 < bx) (Hby : 0 < by_) (Hdx : (bx | n)) (Hdy : (by_ | n)) (HC : length C = n * n).

  Definition block_us (i j : nat) (f : nat -> nat -> T) : list (loc * (T -> T)) :=
    seq 0 bx ≫= fun ii => seq 0 by_ ≫= fun jj => [((cC, (i + ii) * n + (j + jj)), fun _ => f (i + ii) (j + jj))].
  Definition holds_block (i j : nat) (f : nat -> nat -> T) (r : list T) : Prop :=
    forall ii jj, ii < bx -> jj < by_ -> r !! (ii * by_ + jj) = Some (f (i + ii) (j + jj)).
  Lemma write_does i j f r : holds_block i j f r -> does (write_block n i j bx by_ r) (block_us i j f).
  Proof.
    intros Hr. unfold write_block, block_us. replace (seq 0 bx) with (rng 0 bx 1) by (rewrite rng_1; f_equal; lia).
    apply does_forP; [lia|]. intros ii Hii%rng_bounds.
    replace (seq 0 by_) with (rng 0 by_ 1) by (rewrite rng_1; f_equal; lia).
    apply does_forP; [lia|]. intros jj Hjj%rng_bounds.
    rewrite (vget_lookup _ _ _ (Hr ii jj ltac:(lia) ltac:(lia))). cbn [pbind]. apply does_wr.
  Qed.
  Lemma block_us_in i j f u : u ∈ block_us i j f -> in_block n bx by_ i j u.1.
  Proof.
    intros (ii&(jj&Hu&Hjj)%elem_of_list_bind&Hii)%elem_of_list_bind.
    apply elem_of_list_singleton in Hu as ->. apply elem_of_seq in Hii, Hjj. exists ii, jj. split_and!; [lia|lia|done].
  Qed.
  Lemma block_us_contrib i j ii jj f v : corner n bx by_ i j -> ii < bx -> jj < by_ ->
    fold_upd (contrib ((cC, (i + ii) * n + (j + jj)) : loc) (block_us i j f)) v = f (i + ii) (j + jj).
  Proof.
    intros [Hi Hj] Hii Hjj. unfold block_us.
    rewrite contrib_bind, (bind_select _ _ ii); [|apply NoDup_seq|apply elem_of_seq; lia|].
    - rewrite contrib_bind, (bind_select _ _ jj); [by rewrite contrib_single_eq|apply NoDup_seq|apply elem_of_seq; lia|].
      intros jj' Hjj' Hne. apply contrib_single_ne. intros [= He]. lia.
    - intros ii' Hii' Hne. apply elem_of_seq in Hii'. apply contrib_none. intros u (jj'&Hu&Hjj')%elem_of_list_bind.
      apply elem_of_list_singleton in Hu as ->. apply elem_of_seq in Hjj'. intros [= He].
      apply mixed_inj in He as [? ?]; [lia| |].
      + apply (corner_col n by_ Hby Hdy); [done|lia].
      + apply (corner_col n by_ Hby Hdy); [done|lia].
  Qed.
  Lemma write_acc i j (r : list T) : acc_in (fun _ => False) (in_block n bx by_ i j) (write_block n i j bx by_ r).
  Proof.
    unfold write_block. apply acc_in_forS. intros ii _ Hii _. apply acc_in_forS. intros jj _ Hjj _.
    apply acc_in_bind; [apply acc_in_vget|]. intros x. apply acc_in_wr. exists ii, jj. split_and!; [lia|lia|done].
  Qed.
  Lemma write_drf i j r : drf (write_block (T := T) n i j bx by_ r).
  Proof.
    unfold write_block. apply drf_forS. intros ii _ _ _. apply drf_forS. intros jj _ _ _.
    apply drf_bind; [apply drf_vget|]. intros x. apply drf_wr.
  Qed.
  Theorem written_par (body : nat -> nat -> prog T unit) (f : nat -> nat -> T) :
    (forall i j, corner n bx by_ i j -> exists r, body i j = write_block n i j bx by_ r /\ holds_block i j f r) ->
    always (with_C C (parL (rng 0 n bx) (fun i => forP 0 n by_ (body i)))) (is_matrix n f).
  Proof.
    intros Hbody.
    apply (blocks_par n bx by_ C Hbx Hby Hdx Hdy HC body (fun i j => block_us i j f) (fun i j _ => f i j)).
    - intros i j Hc. destruct (Hbody i j Hc) as (r&->&Hr). by apply write_does.
    - intros i j u _. apply block_us_in.
    - intros i j ii jj v Hc Hii Hjj. by rewrite block_us_contrib.
    - intros i j Hc. destruct (Hbody i j Hc) as (r&->&_). apply write_acc.
    - intros i j Hc. destruct (Hbody i j Hc) as (r&->&_). apply write_drf.
  Qed.
End Written.
