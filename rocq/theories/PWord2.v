(** Word arithmetic without wrap-around: the iteration library and the variants
    algorithms, looped and semi. *)
From Verif Require Import LoopFacts Tools MWord2 PWord.

Definition bnd (K : nat) (v : list nat) : Prop := Forall (fun x => x <= K) v.
Lemma bnd_mono K K' v : K <= K' -> bnd K v -> bnd K' v.
Proof. intros HK Hv. eapply Forall_impl; [exact Hv|]. cbn. lia. Qed.
Lemma lget_ok {A} (v : list A) i x : lget v i = Ok x -> v !! i = Some x.
Proof. unfold lget. destruct (v !! i); [by intros [= ->]|done]. Qed.
Lemma lget_bnd K v i x : bnd K v -> lget v i = Ok x -> x <= K.
Proof. intros Hb Hx%lget_ok. by apply (Forall_lookup_1 _ _ _ _ Hb Hx). Qed.
Lemma lset_ok {A} (v v' : list A) i x : lset v i x = Ok v' -> v' = <[i := x]> v.
Proof. unfold lset. destruct (_ <? _); [by intros [= ->]|done]. Qed.
Lemma lset_bnd K v v' i x : bnd K v -> x <= K -> lset v i x = Ok v' -> bnd K v'.
Proof. intros Hv Hx ->%lset_ok. by apply Forall_insert. Qed.
Lemma lset_at_bnd K v v' i x : bnd K v -> x <= K -> lset_at v i x = Ok v' -> bnd K v'.
Proof. unfold lset_at. destruct (_ <? _); [|done]. intros Hv Hx [= <-]. by apply Forall_insert. Qed.
Lemma lat_bnd K v i x : bnd K v -> lat v i = Ok x -> x <= K.
Proof.
  unfold lat. intros Hb. destruct (v !! i) eqn:E; [|done]. intros [= <-]. by apply (Forall_lookup_1 _ _ _ _ Hb E).
Qed.
Lemma foldR_inv {S X} (P : S -> Prop) (l : list X) f (s s' : S) :
  (forall x s s', x ∈ l -> P s -> f x s = Ok s' -> P s') -> P s -> foldR l f s = Ok s' -> P s'.
Proof.
  revert s. induction l as [|x l IH]; intros s Hf Hs; cbn; [by intros [= <-]|].
  destruct (f x s) as [s1|] eqn:E; cbn; [|done]. apply IH.
  - intros. eapply Hf; [by right|done..].
  - eapply Hf; [by left|done..].
Qed.
Lemma foldR_eq {S X} (P : S -> Prop) (l : list X) f g (s : S) :
  (forall x s, x ∈ l -> P s -> f x s = g x s) -> (forall x s s', x ∈ l -> P s -> g x s = Ok s' -> P s') -> P s ->
  foldR l f s = foldR l g s.
Proof.
  revert s. induction l as [|x l IH]; intros s Hf Hg Hs; cbn; [done|].
  rewrite Hf by (done || by left). destruct (g x s) as [s1|] eqn:E; cbn; [|done]. apply IH.
  - intros. apply Hf; [by right|done].
  - intros. eapply Hg; [by right|done..].
  - eapply Hg; [by left|done..].
Qed.
Lemma rbind_eq {A B} (r : res A) (f g : A -> res B) : (forall a, r = Ok a -> f a = g a) -> rbind r f = rbind r g.
Proof. destruct r; cbn; auto. Qed.
Lemma ofres_bind_eq {T A B} (r : res A) (f g : A -> prog T B) :
  (forall a, r = Ok a -> f a = g a) -> pbind f (ofres r) = pbind g (ofres r).
Proof. destruct r; cbn; auto. Qed.

Section Iter.
  Context (M : nat).
  (** ** Iterator *)
  Lemma increment_from_bnd K fuel d mn mx st cur cur' :
    bnd K mn -> bnd K mx -> bnd K cur -> increment_from fuel d mn mx st cur = Ok cur' -> bnd K cur'.
  Proof.
    intros Hmn Hmx. revert d. induction fuel as [|f IH]; intros d Hc; cbn [increment_from]; [by intros [= <-]|].
    destruct (lget cur d) as [c|] eqn:E1; [|done]. destruct (lget st d) as [s|] eqn:E2; [|done]. cbn [rbind].
    destruct (lget mx d) as [m|] eqn:E3; [|done]. cbn [rbind].
    destruct (c + s <? m) eqn:E4; [|by apply IH]. apply Nat.ltb_lt in E4.
    destruct (lset cur d (c + s)) as [cur1|] eqn:E5; [|done]. cbn [rbind].
    assert (bnd K cur1). { eapply lset_bnd; [exact Hc| |exact E5]. pose proof (lget_bnd _ _ _ _ Hmx E3). lia. }
    apply foldR_inv; [|done]. intros i s1 s2 _ Hs1. destruct (lget mn i) as [v|] eqn:E6; [|done]. cbn [rbind].
    apply lset_bnd; [done|]. eapply lget_bnd; [|eassumption]; done.
  Qed.
  Lemma increment_from_w_eq K b fuel d mn mx st cur :
    K + b < M -> bnd K cur -> bnd b st -> increment_from_w M fuel d mn mx st cur = increment_from fuel d mn mx st cur.
  Proof.
    intros HK Hc Hs. revert d. induction fuel as [|f IH]; intros d; cbn [increment_from increment_from_w]; [done|].
    apply rbind_eq. intros c E1. apply rbind_eq. intros s E2. apply rbind_eq. intros m E3.
    pose proof (lget_bnd _ _ _ _ Hc E1). pose proof (lget_bnd _ _ _ _ Hs E2). rewrite wadd_small by lia.
    destruct (c + s <? m); [done|apply IH].
  Qed.
  Lemma iterates_bnd K n mn mx st cur l :
    bnd K mn -> bnd K mx -> bnd K cur -> iterates n mn mx st cur = Ok l -> Forall (bnd K) l.
  Proof.
    intros Hmn Hmx. revert cur l. induction n as [|n IH]; intros cur l Hc; cbn; [intros [= <-]; constructor|].
    destruct (dim_increment mn mx st cur) as [nxt|] eqn:E; [|done]. cbn.
    destruct (iterates n mn mx st nxt) as [l'|] eqn:E2; [|done]. cbn. intros [= <-].
    constructor; [done|]. eapply IH; [|exact E2]. by eapply increment_from_bnd in E.
  Qed.
  Lemma iterates_w_eq K b n mn mx st cur :
    K + b < M -> bnd K mn -> bnd K mx -> bnd K cur -> bnd b st ->
    iterates_w M n mn mx st cur = iterates n mn mx st cur.
  Proof.
    intros HK Hmn Hmx Hc Hs. revert cur Hc. induction n as [|n IH]; intros cur Hc; cbn; [done|].
    unfold dim_increment_w. rewrite (increment_from_w_eq K b) by done.
    apply rbind_eq. intros nxt E. rewrite IH; [done|]. by eapply increment_from_bnd in E.
  Qed.
  Lemma dim_index_iterator_ok mn mx st it : dim_index_iterator mn mx st = Ok it -> it = mn.
  Proof. unfold dim_index_iterator. destruct (_ || _); [done|by intros [= <-]]. Qed.
  Lemma map_dims_bnd K p mp v v' : bnd K p -> bnd K v -> map_dims p mp v = Ok v' -> bnd K v'.
  Proof.
    unfold map_dims. intros Hp Hv. destruct (negb _); [done|]. apply foldR_inv; [|done].
    intros i s s' _ Hs. destruct (lget mp i) as [q|]; [|done]. cbn. destruct (lat p i) as [x|] eqn:E; [|done]. cbn.
    apply lset_at_bnd; [done|]. eapply lat_bnd; [|eassumption]; done.
  Qed.
  Lemma reduce_dims_bnd K dim pd v v' : bnd K v -> reduce_dims dim pd v = Ok v' -> bnd K v'.
  Proof.
    unfold reduce_dims. intros Hv. apply foldR_inv; [|constructor].
    intros i s s' _ Hs. destruct (lat pd i) as [[]|]; [|by intros [= <-]|done]. cbn.
    destruct (lget v i) as [x|] eqn:E; [|done]. cbn. intros [= <-]. apply Forall_app. split; [done|].
    apply Forall_singleton. eapply lget_bnd; [|eassumption]; done.
  Qed.
  Lemma add_block_bnd K b dim cur block l : bnd K cur -> bnd b block -> add_block dim cur block = Ok l -> bnd (K + b) l.
  Proof.
    intros Hc Hb. apply foldR_inv; [|constructor]. intros d s s' _ Hs.
    destruct (lget cur d) as [c|] eqn:E1; [|done]. cbn. destruct (lget block d) as [x|] eqn:E2; [|done]. cbn.
    intros [= <-]. apply Forall_app. split; [done|]. apply Forall_singleton.
    pose proof (lget_bnd _ _ _ _ Hc E1). pose proof (lget_bnd _ _ _ _ Hb E2). lia.
  Qed.
  Lemma add_block_w_eq K b dim cur block :
    K + b < M -> bnd K cur -> bnd b block -> add_block_w M dim cur block = add_block dim cur block.
  Proof.
    intros HK Hc Hb. apply (foldR_eq (fun _ => True)); [|done..]. intros d s _ _.
    apply rbind_eq. intros c E1. apply rbind_eq. intros x E2.
    pose proof (lget_bnd _ _ _ _ Hc E1). pose proof (lget_bnd _ _ _ _ Hb E2). by rewrite wadd_small by lia.
  Qed.

  (** ** Counts: always congruent *)
  Definition below (mn mx : list nat) : Prop := forall d lo hi, mn !! d = Some lo -> mx !! d = Some hi -> lo <= hi.
  Lemma foldR_mod (f g : nat -> nat -> res nat) (l : list nat) s s' :
    0 < M ->
    (forall x a a', weq M a a' -> a < M -> match f x a, g x a' with Ok b, Ok b' => weq M b b' /\ b < M | Fail e, Fail e' => e = e' | _, _ => False end) ->
    weq M s s' -> s < M ->
    match foldR l f s, foldR l g s' with Ok b, Ok b' => weq M b b' /\ b < M | Fail e, Fail e' => e = e' | _, _ => False end.
  Proof.
    intros HM Hf. revert s s'. induction l as [|x l IH]; intros s s' Hs Hl; cbn; [done|].
    specialize (Hf x s s' Hs Hl). destruct (f x s), (g x s'); cbn; try done. destruct Hf. by apply IH.
  Qed.

  Lemma weq_small a a' : weq M a a' -> a < M -> a' < M -> a = a'.
  Proof. unfold weq. intros E Ha Ha'. by rewrite !Nat.mod_small in E. Qed.
  Lemma count_eq (f g : nat -> nat -> res nat) (l : list nat) :
    1 < M ->
    (forall x a a', weq M a a' -> a < M -> match f x a, g x a' with Ok b, Ok b' => weq M b b' /\ b < M | Fail e, Fail e' => e = e' | _, _ => False end) ->
    (forall c, foldR l g 1 = Ok c -> c < M) -> foldR l f 1 = foldR l g 1.
  Proof.
    intros HM Hf Hc. pose proof (foldR_mod f g l 1 1 ltac:(lia) Hf eq_refl HM) as HH.
    destruct (foldR l f 1), (foldR l g 1); try done; [|by f_equal].
    destruct HH. f_equal. by apply weq_small; auto.
  Qed.
  Lemma index_count_w_eq K dim which pd mn mx block :
    K < M -> 1 < M -> bnd K mx -> below mn mx ->
    (forall c, index_count dim which pd mn mx block = Ok c -> c < M) ->
    index_count_w M dim which pd mn mx block = index_count dim which pd mn mx block.
  Proof.
    intros HK HM Hmx Hb Hc. apply count_eq; [done| |done]. intros d a a' Ha Hl.
    destruct (lget pd d) as [q|]; [|done]. cbn [rbind].
    destruct (lget mn d) as [lo|] eqn:E1; [|done]. cbn [rbind].
    destruct (lget mx d) as [hi|] eqn:E2; [|done]. cbn [rbind].
    destruct (lget block d) as [bl|]; [|done]. cbn [rbind].
    pose proof (lget_bnd _ _ _ _ Hmx E2). apply lget_ok in E1, E2. pose proof (Hb _ _ _ E1 E2).
    rewrite wsub_small by lia.
    destruct (block_count (hi - lo) bl) as [c|]; [|done]. cbn [rbind].
    destruct (bool_decide _); [|done]. split; [|apply wmul_lt; lia]. by apply weq_wmul; [lia| |].
  Qed.
  Lemma looped_count_w_eq K dim mn mx block :
    K < M -> 1 < M -> bnd K mx -> below mn mx ->
    (forall c, looped_count dim mn mx block = Ok c -> c < M) ->
    looped_count_w M dim mn mx block = looped_count dim mn mx block.
  Proof.
    intros HK HM Hmx Hb Hc. apply count_eq; [done| |done]. intros d a a' Ha Hl.
    destruct (lget mx d) as [hi|] eqn:E2; [|done]. cbn [rbind].
    destruct (lget mn d) as [lo|] eqn:E1; [|done]. cbn [rbind].
    destruct (lget block d) as [bl|]; [|done]. cbn [rbind].
    pose proof (lget_bnd _ _ _ _ Hmx E2). apply lget_ok in E1, E2. pose proof (Hb _ _ _ E1 E2).
    rewrite wsub_small by lia. destruct (bl =? 0); [done|].
    split; [|apply wmul_lt; lia]. by apply weq_wmul; [lia| |].
  Qed.

  Lemma add_block_span b dim cur block mx : bnd b block -> add_block dim cur block = Ok mx ->
    forall d lo hi, cur !! d = Some lo -> mx !! d = Some hi -> lo <= hi <= lo + b.
  Proof.
    unfold add_block. intros Hb H.
    assert (forall l s s', (forall d lo hi, cur !! d = Some lo -> s !! d = Some hi -> lo <= hi <= lo + b) ->
      l = seq (length s) (length l) ->
      foldR l (fun d acc => let? c := lget cur d in let? b := lget block d in Ok (acc ++ [c + b])) s = Ok s' ->
      forall d lo hi, cur !! d = Some lo -> s' !! d = Some hi -> lo <= hi <= lo + b) as HH.
    { induction l as [|d l IH]; intros s s' Hs Hl; cbn [foldR]; [by intros [= <-]|].
      injection Hl as -> Hl.
      destruct (lget cur (length s)) as [c|] eqn:E1; [|done]. cbn [rbind].
      destruct (lget block _) as [x|] eqn:E2; [|done]. cbn [rbind]. apply (lget_bnd b) in E2; [|done]. apply IH.
      - intros d lo hi Hlo. destruct (decide (d < length s)).
        + rewrite lookup_app_l by done. by apply Hs.
        + rewrite lookup_app_r by lia. intros Hq. destruct (d - length s) eqn:E; [|done].
          cbn in Hq. injection Hq as <-. apply lget_ok in E1. assert (d = length s) as -> by lia.
          rewrite E1 in Hlo. injection Hlo as <-. lia.
      - rewrite app_length. cbn [length]. rewrite Nat.add_1_r. done. }
    apply (HH (seq 0 dim) [] mx); [|by rewrite seq_length|exact H]. intros d lo hi _. by rewrite lookup_nil.
  Qed.
  Lemma add_block_below b dim cur block mx : bnd b block -> add_block dim cur block = Ok mx -> below cur mx.
  Proof. intros Hb H d lo hi Hlo Hhi. pose proof (add_block_span _ _ _ _ _ Hb H d lo hi Hlo Hhi). lia. Qed.
  Lemma foldR_snoc {S X} (l : list X) x (f : X -> S -> res S) s :
    foldR (l ++ [x]) f s = let? s' := foldR l f s in f x s'.
  Proof.
    revert s. induction l as [|y l IH]; intros s; cbn.
    - by destruct (f x s).
    - destruct (f y s); cbn; [apply IH|done].
  Qed.
  Lemma looped_count_le n dim mn mx block c :
    (forall d lo hi, mn !! d = Some lo -> mx !! d = Some hi -> hi - lo <= n) ->
    looped_count dim mn mx block = Ok c -> c <= n ^ dim /\ dim <= length block.
  Proof.
    intros Hd. unfold looped_count. revert c. induction dim as [|dim IH]; intros c.
    { intros [= <-]. cbn. lia. }
    rewrite seq_S, foldR_snoc. destruct (foldR _ _ _) as [a|]; [|done]. cbn [rbind Nat.add].
    destruct (IH a eq_refl) as [Ha _]. clear IH.
    destruct (lget mx dim) as [hi|] eqn:E1; [|done]. cbn [rbind].
    destruct (lget mn dim) as [lo|] eqn:E2; [|done]. cbn [rbind].
    destruct (lget block dim) as [b|] eqn:E3; [|done]. cbn [rbind].
    destruct (b =? 0) eqn:E4; [done|]. apply Nat.eqb_neq in E4. intros [= <-].
    apply lget_ok in E1, E2, E3. apply lookup_lt_Some in E3. split; [|lia].
    specialize (Hd _ _ _ E2 E1). assert ((hi - lo) / b <= hi - lo) by (apply Nat.div_le_upper_bound; nia).
    cbn [Nat.pow]. rewrite Nat.mul_comm. apply Nat.mul_le_mono; lia.
  Qed.

  (** ** Nested loops *)
  Context {T : Type}.
  Definition blw (K : nat) (v : list nat) : Prop := Forall (fun x => x < K) v.
  Lemma execute_looped_w_eq K b dim cur_dim mn mx st (f g : list nat -> prog T unit) args :
    0 < M -> K + b <= M -> bnd K mx -> bnd b st -> (forall p, blw K p -> f p = g p) -> blw K args ->
    execute_looped_w M dim cur_dim mn mx st f args = execute_looped dim cur_dim mn mx st g args.
  Proof.
    intros HM HK Hmx Hst Hf. revert cur_dim args. induction dim as [|dim IH]; intros cd args Ha; cbn [execute_looped_w execute_looped]; [by apply Hf|].
    apply ofres_bind_eq. intros lo _. apply ofres_bind_eq. intros hi E1. apply ofres_bind_eq. intros s E2.
    pose proof (lget_bnd _ _ _ _ Hmx E1). pose proof (lget_bnd _ _ _ _ Hst E2).
    wstep. apply IH. apply Forall_app. split; [done|]. apply Forall_singleton. lia.
  Qed.

  (** Sizes of all blocks but the last, and of all of them. *)
  Fixpoint conf_ok (bs : list nat) (conf : list (list nat)) : Prop :=
    match bs, conf with
    | [], [] => True
    | b :: bs, c :: conf => bnd b c /\ conf_ok bs conf
    | _, _ => False
    end.
  Fixpoint nsum (bs : list nat) : nat := match bs with [] => 0 | b :: bs => b + nsum bs end.
  Fixpoint isum (bs : list nat) : nat := match bs with [] | [_] => 0 | b :: bs => b + isum bs end.
  (** The counts of every level fit. *)
  Fixpoint counts_fit (dim : nat) (conf : list (list nat * list bool)) (mn mx : list nat) : Prop :=
    match conf with
    | [] | [_] => True
    | (block, pd) :: conf' =>
        (forall which c, index_count dim which pd mn mx block = Ok c -> c < M) /\
        forall cur mx', add_block dim cur block = Ok mx' -> counts_fit dim conf' cur mx'
    end.
  Lemma iterate_conf_w_eq dim conf bs K mn mx (f g : list nat -> prog T unit) :
    1 < M -> conf_ok bs conf.*1 -> K + nsum bs < M ->
    bnd K mn -> bnd K mx -> below mn mx -> counts_fit dim conf mn mx ->
    (forall p, blw (K + isum bs) p -> f p = g p) ->
    iterate_conf_w M dim conf mn mx f = iterate_conf dim conf mn mx g.
  Proof.
    intros HM. revert bs K mn mx. induction conf as [|[block pd] conf IH]; intros bs K mn mx Hok HK Hmn Hmx Hle Hct Hf.
    { cbn. by destruct (_ || _). }
    destruct bs as [|b bs]; [destruct Hok|]. destruct Hok as [Hb Hok]. cbn [nsum] in HK.
    cbn [iterate_conf_w iterate_conf]. destruct (_ || _); [done|].
    destruct conf as [|c2 conf'].
    { destruct bs; [|destruct Hok]. cbn [nsum isum] in *. rewrite Nat.add_0_r in Hf.
      apply (execute_looped_w_eq K b); [lia|lia|assumption..|constructor]. }
    destruct bs as [|b2 bs]; [destruct Hok|]. set (bs' := b2 :: bs) in *.
    change (isum (b :: bs')) with (b + isum bs') in Hf.
    destruct Hct as [Hct1 Hct2].
    apply ofres_bind_eq. intros mp _. apply ofres_bind_eq. intros mnr E1. apply ofres_bind_eq. intros mxr E2.
    apply ofres_bind_eq. intros blr E3.
    apply (reduce_dims_bnd K) in E1, E2; [|done..]. apply (reduce_dims_bnd b) in E3; [|done].
    rewrite !(index_count_w_eq K) by (lia || assumption || apply Hct1).
    apply ofres_bind_eq. intros cr _. apply ofres_bind_eq. intros cm _.
    apply ofres_bind_eq. intros it ->%dim_index_iterator_ok.
    rewrite (iterates_w_eq K b) by (lia || assumption). apply ofres_bind_eq. intros ps Eps.
    apply (iterates_bnd K) in Eps; [|done..]. apply parL_eq. intros p Hp.
    rewrite Forall_forall in Eps. specialize (Eps p Hp).
    apply ofres_bind_eq. intros mnf Emn. apply ofres_bind_eq. intros mxf Emx.
    apply (map_dims_bnd K) in Emn, Emx; [|done..].
    apply ofres_bind_eq. intros it ->%dim_index_iterator_ok.
    rewrite (iterates_w_eq K b) by (lia || assumption). apply ofres_bind_eq. intros cs Ecs.
    apply (iterates_bnd K) in Ecs; [|done..]. rewrite Forall_forall in Ecs.
    apply foldP_eq. intros cur _ Hcur. specialize (Ecs cur Hcur).
    rewrite (add_block_w_eq K b) by (lia || assumption). apply ofres_bind_eq. intros rm Erm.
    apply (IH bs' (K + b)).
    - exact Hok.
    - lia.
    - by apply (bnd_mono K); [lia|].
    - eapply add_block_bnd; [exact Ecs|exact Hb|exact Erm].
    - eapply add_block_below; [exact Hb|exact Erm].
    - eapply Hct2; exact Erm.
    - intros q Hq. apply Hf. by rewrite Nat.add_assoc.
  Qed.
End Iter.
