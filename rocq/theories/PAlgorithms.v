(** Proofs about src/variants/algorithms.hpp. *)
From Verif Require Import Tools Tools2 MIter SpecIter PIter PIter2 MKernels PKernels MRecursive PRecursive MSchedule SpecSched PSchedule PPseudo MVariants.

Lemma grid2 n l : lists_grid [0; 0] [n; n] [1; 1] l ->
  NoDup l /\ forall p, p ∈ l <-> exists x y, p = [x; y] /\ x < n /\ y < n.
Proof.
  intros [Hnd Hl]. split; [done|]. intros p. rewrite Hl. split.
  - intros [Lp Hp]. destruct p as [|x [|y [|]]]; try done.
    destruct (Hp 0) as (?&?&?&q&[= <-]&[= <-]&[= <-]&[= ->]&Hx); [simpl; lia|].
    destruct (Hp 1) as (?&?&?&q'&[= <-]&[= <-]&[= <-]&[= ->]&Hy); [simpl; lia|].
    exists (0 + q * 1), (0 + q' * 1). done.
  - intros (x&y&->&Hx&Hy). split; [done|]. intros [|[|d]] Hd; [..|simpl in Hd; lia].
    + exists 0, n, 1, x. split_and!; try done; [simpl; f_equal; lia|lia].
    + exists 0, n, 1, y. split_and!; try done; [simpl; f_equal; lia|lia].
Qed.

Lemma index_iterates_eq s n w : 0 < s ->
  index_iterates n s (w / s, w mod s, w) = (fun w => (w / s, w mod s, w)) <$> seq w n.
Proof.
  intros Hs. revert w. induction n as [|n IH]; intros w; [done|].
  cbn [index_iterates seq fmap list_fmap]. f_equal. rewrite <- IH. f_equal. unfold index_iterator_increment.
  pose proof (Nat.div_mod w s ltac:(lia)) as Hw. pose proof (Nat.mod_upper_bound w s ltac:(lia)) as Hm.
  destruct (Nat.eqb_spec (w mod s) (s - 1)) as [He|Hne].
  - assert ((S w) / s = w / s + 1) as ->.
    { symmetry. apply Nat.div_unique with 0; [lia|]. nia. }
    assert ((S w) mod s = 0) as ->.
    { symmetry. apply Nat.mod_unique with (w / s + 1); [lia|]. nia. }
    f_equal. lia.
  - assert ((S w) / s = w / s) as ->.
    { symmetry. apply Nat.div_unique with (w mod s + 1); [lia|]. lia. }
    assert ((S w) mod s = w mod s + 1) as ->.
    { symmetry. apply Nat.mod_unique with (w / s); lia. }
    f_equal. lia.
Qed.

Section PAlg.
  Context {T : Type} `{NumOps T}.

  Lemma inner_product_ok (u v : list T) lo n at_ f :
    (forall k, k < n -> exists a b, u !! (lo + k) = Some a /\ v !! (at_ + k) = Some b /\ f k = nmul a b) ->
    inner_product u v lo (lo + n) at_ = Ret (dot f (seq 0 n)).
  Proof.
    intros Hf. unfold inner_product. replace (lo + n - lo) with n by lia. apply forS1_dot.
    intros k acc Hk. destruct (Hf k Hk) as (a&b&Ha&Hb&->). rewrite (vget_lookup _ _ _ Ha). cbn [pbind].
    rewrite (vget_lookup _ _ _ Hb). done.
  Qed.

  Section Inner.
    Context (As Bs : list T) (br bi : nat) (a b : nat -> nat -> T).
    Context (HAs : forall i k, i < br -> k < bi -> As !! (i * bi + k) = Some (a i k)).
    Context (HBs : forall j k, j < br -> k < bi -> Bs !! (j * bi + k) = Some (b j k)).

    Definition inner_us : list (nat * (T -> T)) :=
      seq 0 (br * br) ≫= fun w => [(w, fun c => nadd c (cell bi a b (w / br) (w mod br)))].
    Lemma alg_inner_ok C : 0 < br -> length C = br * br ->
      alg_inner As Bs C br bi = Ret (applyL inner_us C).
    Proof.
      intros Hbr HC. unfold alg_inner.
      replace (0, 0, 0) with (0 / br, 0 mod br, 0) by (by rewrite Nat.div_0_l, Nat.mod_0_l by lia).
      rewrite index_iterates_eq by done.
      rewrite (foldP_applyL (br * br) _ _ (fun t => [(t.2, fun c => nadd c (cell bi a b (t.1.1) (t.1.2)))])).
      - by rewrite bind_fmap_l.
      - done.
      - intros [[x y] w] s (w'&[= -> -> ->]&Hw)%elem_of_list_fmap Hs. apply elem_of_seq in Hw. simpl.
        assert (w' / br < br) by (apply Nat.div_lt_upper_bound; lia).
        pose proof (Nat.mod_upper_bound w' br ltac:(lia)).
        replace ((w' / br + 1) * bi) with (w' / br * bi + bi) by lia.
        rewrite (inner_product_ok As Bs _ bi _ (fun k => nmul (a (w' / br) k) (b (w' mod br) k))).
        + cbn [pbind]. rewrite vadd_ok by lia. done.
        + intros k Hk. eexists _, _. split_and!; [by apply HAs|by apply HBs|done].
    Qed.
    Lemma contrib_inner i j : i < br -> j < br ->
      contrib (i * br + j) inner_us = [fun c => nadd c (cell bi a b i j)].
    Proof.
      intros Hi Hj. unfold inner_us. rewrite contrib_bind, (bind_select _ _ (i * br + j)).
      - rewrite contrib_single_eq. rewrite Nat.div_add_l by lia. rewrite Nat.div_small, Nat.add_0_r by done.
        rewrite Nat.add_comm, Nat.mod_add, Nat.mod_small by lia. done.
      - apply NoDup_seq.
      - apply elem_of_seq. split; [lia|]. simpl. by apply mixed_lt.
      - intros w _ Hne. by apply contrib_single_ne.
    Qed.
  End Inner.

  (** The k_block loop of a task: the block of the product. *)
  Definition alg_loop (N : nat) (A B : list T) (bi br ox oy : nat) : prog T (list T * list T * list T) :=
    forS 0 N bi (fun k_block (st : list T * list T * list T) =>
        let '(A_small, B_small, C_inner) := st in
        let! A_small := alg_copy A A_small N ox k_block br bi in
        let! B_small := alg_copy B B_small N oy k_block br bi in
        let! C_inner := alg_inner A_small B_small C_inner br bi in
        Ret (A_small, B_small, C_inner))
        (replicate (bi * br) nzero, replicate (bi * br) nzero, replicate (br * br) nzero).
  Definition alg_write (N : nat) (C_inner : list T) (br ox oy : nat) : prog T unit :=
    forP 0 br 1 (fun x => forP 0 br 1 (fun y =>
      let! c := vget C_inner (x * br + y) in
      wr [0] ((ox + x) * N + (oy + y)) c)).
  Lemma alg_task_eq N A B bi br x y :
    alg_task N A B bi br [x; y] =
    let! st := alg_loop N A B bi br (x * br) (y * br) in alg_write N st.2 br (x * br) (y * br).
  Proof. done. Qed.

  Lemma alg_loop_ok N (A B : list T) bi br x y :
    length A = N * N -> length B = N * N -> x + br <= N -> y + br <= N -> 0 < br -> 0 < bi -> (bi | N) ->
    exists As Bs C, alg_loop N A B bi br x y = Ret (As, Bs, C) /\ is_block br x y (prod_t_chunks bi N A B) C.
  Proof.
    intros HA HB Hx Hy Hbr Hbi HdN. unfold alg_loop. rewrite forS_step by done.
    set (cellv := fun kb i j => dot (fun k => nmul (ent N A (x + i) (kb + k)) (ent N B (y + j) (kb + k))) (seq 0 bi)).
    set (us := fun kb => inner_us br bi (fun i k => ent N A (x + i) (kb + k)) (fun j k => ent N B (y + j) (kb + k))).
    assert (Hloop : forall kbs As Bs C, (forall kb, kb ∈ kbs -> kb + bi <= N) ->
       length As = bi * br -> length Bs = bi * br -> length C = br * br ->
       exists As' Bs',
       foldP kbs (fun k_block (st : list T * list T * list T) =>
        let '(A_small, B_small, C_inner) := st in
        let! A_small := alg_copy A A_small N x k_block br bi in
        let! B_small := alg_copy B B_small N y k_block br bi in
        let! C_inner := alg_inner A_small B_small C_inner br bi in
        Ret (A_small, B_small, C_inner)) (As, Bs, C) = Ret (As', Bs', applyL (kbs ≫= us) C)).
    { induction kbs as [|kb kbs IH]; intros As Bs C Hkbs HAs HBs HC; [by eexists _, _|].
      cbn [foldP].
      assert (kb + bi <= N) by (apply Hkbs, elem_of_cons; by left).
      destruct (ktb_copy_ok A As N x kb br bi) as (As1&HcA&HlA&HA1); [done..|].
      change (alg_copy A As N x kb br bi = Ret As1) in HcA. rewrite HcA. cbn [pbind].
      destruct (ktb_copy_ok B Bs N y kb br bi) as (Bs1&HcB&HlB&HB1); [done..|].
      change (alg_copy B Bs N y kb br bi = Ret Bs1) in HcB. rewrite HcB. cbn [pbind].
      rewrite (alg_inner_ok As1 Bs1 br bi (fun i k => ent N A (x + i) (kb + k)) (fun j k => ent N B (y + j) (kb + k)) HA1 HB1 C Hbr HC).
      cbn [pbind]. destruct (IH As1 Bs1 (applyL (us kb) C)) as (As'&Bs'&He).
      - intros kb' Hkb'. apply Hkbs, elem_of_cons; by right.
      - done.
      - done.
      - by rewrite length_applyL.
      - exists As', Bs'. rewrite bind_cons, applyL_app. exact He. }
    destruct (Hloop (rng 0 N bi) (replicate (bi * br) nzero) (replicate (bi * br) nzero) (replicate (br * br) nzero)) as (As'&Bs'&->).
    - intros kb Hkb. apply elem_of_rng0 in Hkb as (q&->&Hq); [|done]. simpl in *.
      pose proof (block_lt bi N q (bi - 1) HdN Hbi ltac:(lia) Hq). lia.
    - apply replicate_length.
    - apply replicate_length.
    - apply replicate_length.
    - eexists _, _, _. split; [reflexivity|]. split; [by rewrite length_applyL, replicate_length|].
      intros i j Hi Hj. rewrite applyL_lookup, lookup_replicate_2 by (by apply mixed_lt). simpl. f_equal.
      rewrite contrib_bind.
      rewrite (bind_ext (fun kb => contrib (i * br + j) (us kb)) (fun kb => [fun c => nadd c (cellv kb i j)]) (rng 0 N bi))
        by (intros kb _; exact (contrib_inner br bi _ _ i j Hi Hj)).
      rewrite bind_ret_fmap.
      unfold prod_t_chunks, dot_chunks. rewrite (divide_div_mul N bi Hbi HdN) at 1.
      rewrite rng_0_exact by done. rewrite <- list_fmap_compose.
      assert (forall ks z, fold_upd ((fun (kb : nat) (c : T) => nadd c (cellv kb i j)) ∘ (fun q => q * bi) <$> ks) z
        = foldl (fun acc q => nadd acc (dot (fun k => nmul (ent N A (x + i) k) (ent N B (y + j) k)) (seq (q * bi) bi))) z ks) as Hf.
      { induction ks as [|q ks IH]; intros z; [done|]. simpl. unfold fold_upd in *. rewrite <- IH. simpl.
        f_equal. unfold cellv. f_equal.
        replace (seq (q * bi) bi) with (Nat.add (q * bi) <$> seq 0 bi) by (rewrite fmap_add_seq; f_equal; lia).
        by rewrite dot_fmap. }
      apply Hf.
  Qed.

  (** ** Failing tasks *)
  Lemma copy_overshoots (M small : list T) N x kb br bi :
    length M = N * N -> length small = bi * br -> 0 < bi -> 0 < br -> N < x + br ->
    alg_copy M small N x kb br bi = Err EOob.
  Proof.
    intros HM Hs Hbi Hbr Hx. unfold alg_copy.
    apply (forS_fails (fun s => length s = bi * br) EOob _ _ _ (br - 1)); [lia|done| | |].
    - intros i s _ Hs'. apply okI_forS1; [lia|done|]. intros k s' _ Hs''.
      eapply okI_bind; [apply okI_vget|]. intros v _. eapply okI_weak; [|apply okI_vset]. simpl; congruence.
    - apply elem_of_rng0; [lia|]. exists (br - 1). lia.
    - intros s Hs'. apply (forS_fails (fun s => length s = bi * br) EOob _ _ _ 0); [lia|done| | |].
      + intros k s' _ Hs''.
        eapply okI_bind; [apply okI_vget|]. intros v _. eapply okI_weak; [|apply okI_vset]. simpl; congruence.
      + apply elem_of_rng0; [lia|]. exists 0. lia.
      + intros s' Hs''. rewrite vget_oob; [done|]. rewrite HM. assert (N * N <= (x + (br - 1)) * N) by (apply Nat.mul_le_mono_r; lia). lia.
  Qed.
  Definition sizes (bi br : nat) (st : list T * list T * list T) : Prop :=
    length st.1.1 = bi * br /\ length st.1.2 = bi * br /\ length st.2 = br * br.
  Lemma okI_acopy (M small : list T) N x kb br bi n : length small = n ->
    okI (fun s => length s = n) EOob (alg_copy M small N x kb br bi).
  Proof. apply okI_copy. Qed.
  Lemma okI_inner (As Bs C : list T) br bi : length C = br * br ->
    okI (fun s => length s = br * br) EOob (alg_inner As Bs C br bi).
  Proof.
    intros HC. apply okI_foldP; [done|]. intros [[x y] w] s _ Hs.
    eapply (okI_bind (fun _ => True)); [|intros v _; by apply okI_vadd].
    apply okI_forS1; [lia|done|]. intros k acc _ _.
    do 2 (eapply okI_bind; [apply okI_vget|]; intros ? _). left. by eexists.
  Qed.
  Lemma okI_alg_body N (A B : list T) x y kb br bi st : sizes bi br st ->
    okI (sizes bi br) EOob
      (let '(A_small, B_small, C_inner) := st in
       let! A_small := alg_copy A A_small N x kb br bi in
       let! B_small := alg_copy B B_small N y kb br bi in
       let! C_inner := alg_inner A_small B_small C_inner br bi in
       Ret (A_small, B_small, C_inner)).
  Proof.
    destruct st as [[As Bs] C]. intros (HA&HB&HC). simpl in *.
    eapply okI_bind; [by apply okI_acopy|]. intros As' HAs'.
    eapply okI_bind; [by apply okI_acopy|]. intros Bs' HBs'.
    eapply (okI_bind (fun s => length s = br * br)); [by apply okI_inner|].
    intros C' HC'. left; eexists; split; [done|]. done.
  Qed.
  Lemma sizes_init bi br : sizes bi br (replicate (bi * br) nzero, replicate (bi * br) nzero, replicate (br * br) nzero).
  Proof. split_and!; apply replicate_length. Qed.
  Lemma okI_alg_loop N (A B : list T) x y br bi : 0 < bi -> okI (sizes bi br) EOob (alg_loop N A B bi br x y).
  Proof.
    intros Hbi. apply okI_forS1; [done|apply sizes_init|]. intros kb st _ Hst. by apply okI_alg_body.
  Qed.

  (** A block that does not lie inside the matrix. *)
  Lemma alg_loop_overshoots N (A B : list T) x y br bi :
    length A = N * N -> length B = N * N -> 0 < N -> 0 < bi -> 0 < br -> N < x + br \/ N < y + br ->
    alg_loop N A B bi br x y = Err EOob.
  Proof.
    intros HA HB HN Hbi Hbr Hxy. unfold alg_loop.
    apply (forS_fails (sizes bi br) EOob _ _ _ 0); [done|apply sizes_init| | |].
    - intros kb st _ Hst. by apply okI_alg_body.
    - apply elem_of_rng0; [done|]. exists 0. lia.
    - intros [[As Bs] C] (HAs&HBs&HC). cbn [fst snd] in *. destruct Hxy as [Hx|Hy].
      + rewrite (copy_overshoots A As) by assumption. reflexivity.
      + destruct (okI_acopy A As N x 0 br bi (bi * br) HAs) as [(As'&->&HAs')| ->]; [|done].
        cbn [pbind]. rewrite copy_overshoots by assumption. reflexivity.
  Qed.
  (** An input block that does not lie inside the matrix. *)
  Lemma alg_loop_partial_input N (A B : list T) x y br bi :
    length A = N * N -> 0 < bi -> 0 < br -> ~ (bi | N) -> x + br = N ->
    alg_loop N A B bi br x y = Err EOob.
  Proof.
    intros HA Hbi Hbr Hnd Hx. unfold alg_loop.
    assert (Hm : N mod bi <> 0) by (intros Hm; apply Hnd, Nat.mod_divide; lia).
    pose proof (Nat.div_mod N bi ltac:(lia)). pose proof (Nat.mod_upper_bound N bi ltac:(lia)).
    apply (forS_fails (sizes bi br) EOob _ _ _ (N / bi * bi)); [done|apply sizes_init| | |].
    - intros kb st _ Hst. by apply okI_alg_body.
    - apply elem_of_rng0; [done|]. exists (N / bi). lia.
    - intros [[As Bs] C] (HAs&HBs&HC). cbn [fst snd] in *.
      change (alg_copy A As N x (N / bi * bi) br bi) with (ktb_copy A As N x (N / bi * bi) br bi).
      assert (N / bi * bi + N mod bi = N) by lia. rewrite (copy_fails A As); [done|assumption..| |]; lia.
  Qed.
  Lemma alg_loop_diverges N (A B : list T) x y br :
    0 < N -> alg_loop N A B 0 br x y = Err EDiverge.
  Proof.
    intros HN. unfold alg_loop, forS. destruct (Nat.ltb_spec 0 N); [|lia]. cbn [andb Nat.eqb].
    assert (forall (M s : list T) o, alg_copy M s N o 0 br 0 = Ret s) as Hc.
    { intros M s o. unfold alg_copy. rewrite forS_step by lia.
      induction (rng 0 br 1) as [|i is IH]; [done|]. cbn [foldP]. rewrite forS_empty by lia. exact IH. }
    rewrite Hc. cbn [pbind]. rewrite Hc. cbn [pbind].
    assert (exists C, alg_inner (replicate (0 * br) nzero) (replicate (0 * br) nzero) (replicate (br * br) nzero) br 0 = Ret C) as [C ->]; [|done].
    destruct (Nat.eq_dec br 0) as [-> |Hbr]; [by eexists|].
    eexists. apply (alg_inner_ok _ _ br 0 (fun _ _ => nzero) (fun _ _ => nzero)).
    - intros; lia.
    - intros; lia.
    - lia.
    - apply replicate_length.
  Qed.

  (** ** The tasks *)
  Definition blk (N br : nat) (p : list nat) (l : loc) : Prop :=
    exists x y i j, p = [x; y] /\ i < br /\ j < br /\ x * br + br <= N /\ y * br + br <= N /\
      l = ([0], (x * br + i) * N + (y * br + j)).
  Lemma blk_disj N br p q l : blk N br p l -> blk N br q l -> p = q.
  Proof.
    intros (x&y&i&j&->&?&?&?&?&->) (x'&y'&i'&j'&->&?&?&?&?&[= He]).
    apply mixed_inj in He as [E1 E2]; [|lia|lia]. apply mixed_inj in E1; [|lia|lia]. apply mixed_inj in E2; [|lia|lia].
    destruct E1, E2. by subst.
  Qed.
  Lemma alg_write_acc (R : loc -> Prop) N (C : list T) br x y : x * br + br <= N -> y * br + br <= N ->
    acc_in R (blk N br [x; y]) (alg_write N C br (x * br) (y * br)).
  Proof.
    intros Hx Hy. unfold alg_write, forP. apply acc_in_forS. intros i _ Hi _. apply acc_in_forS. intros j _ Hj _.
    apply acc_in_bind; [apply acc_in_vget|]. intros c. apply acc_in_wr. exists x, y, i, j. split_and!; try done; lia.
  Qed.
  Lemma alg_write_drf N (C : list T) br x y : drf (alg_write N C br x y).
  Proof.
    unfold alg_write, forP. apply drf_forS. intros i _ _ _. apply drf_forS. intros j _ _ _.
    apply drf_bind; [apply drf_vget|]. intros c. apply drf_wr.
  Qed.
  Lemma alg_loop_simple N (A B : list T) bi br x y : simple (alg_loop N A B bi br x y).
  Proof.
    unfold alg_loop. apply simple_forS. intros kb [[As Bs] C].
    assert (forall (M s : list T) o, simple (alg_copy M s N o kb br bi)) as Hc.
    { intros M s o. unfold alg_copy. apply simple_forS. intros i s'. apply simple_forS. intros k s''.
      apply simple_bind; [apply simple_vget|]. intros v. apply simple_vset. }
    apply simple_bind; [apply Hc|]. intros As'. apply simple_bind; [apply Hc|]. intros Bs'.
    apply simple_bind; [|intros; apply simple_ret]. apply simple_foldP. intros [[u v] w] s.
    apply simple_bind.
    - apply simple_forS. intros k acc. do 2 (apply simple_bind; [apply simple_vget|]; intros ?). apply simple_ret.
    - intros z. unfold vadd. apply simple_bind; [apply simple_vget|]. intros c. apply simple_vset.
  Qed.
  Lemma alg_task_acc N (A B : list T) bi br x y :
    length A = N * N -> length B = N * N -> 0 < N -> 0 < br ->
    acc_in (fun _ => False) (blk N br [x; y]) (alg_task N A B bi br [x; y]).
  Proof.
    intros HA HB HN Hbr. rewrite alg_task_eq. destruct (Nat.eq_dec bi 0) as [-> |Hbi].
    { by rewrite alg_loop_diverges. }
    destruct (decide (x * br + br <= N /\ y * br + br <= N)) as [[Hx Hy]|Hn].
    - apply acc_in_bind; [apply simple_acc, alg_loop_simple|]. intros st. by apply alg_write_acc.
    - rewrite alg_loop_overshoots by (first [assumption|lia]). done.
  Qed.
  Lemma alg_task_drf N (A B : list T) bi br x y : drf (alg_task N A B bi br [x; y]).
  Proof.
    rewrite alg_task_eq. apply drf_bind; [apply simple_drf, alg_loop_simple|]. intros st. apply alg_write_drf.
  Qed.

  (** ** The component *)
  Definition nblocks (N br : nat) : nat := if N mod br =? 0 then N / br else N / br + 1.
  Lemma nblocks_cover N br i : 0 < br -> i < N -> i / br < nblocks N br.
  Proof.
    intros Hbr Hi. unfold nblocks. pose proof (Nat.div_mod N br ltac:(lia)) as E. pose proof (Nat.mod_upper_bound N br ltac:(lia)).
    destruct (Nat.eqb_spec (N mod br) 0) as [E0|].
    - apply Nat.div_lt_upper_bound; lia.
    - assert (i / br <= N / br) by (apply Nat.div_le_mono; lia). lia.
  Qed.
  Lemma alg_eq N (A B : list T) bi br : 0 < br -> 0 < N -> exists l, NoDup l /\
    (forall p, p ∈ l <-> exists x y, p = [x; y] /\ x < nblocks N br /\ y < nblocks N br) /\
    algorithms_matrix_multiply N A B bi br =
      (valloc [0] (N * N) nzero ;;; parL l (alg_task N A B bi br) ;;; vread [0] (N * N)).
  Proof.
    intros Hbr HN. set (rb := nblocks N br).
    assert (0 < rb) as Hrb. { pose proof (nblocks_cover N br 0 Hbr HN). unfold rb. lia. }
    destruct (dim_index_iterator_enumerates [0; 0] [rb; rb] [1; 1]) as (l&_&Hl&Hg&_).
    - done.
    - done.
    - repeat constructor.
    - repeat constructor; lia.
    - exists l. destruct (grid2 rb l Hg) as [Hnd Hel]. split; [done|]. split; [done|].
      unfold algorithms_matrix_multiply. destruct (Nat.eqb_spec br 0); [lia|].
      fold (nblocks N br). fold rb. unfold alg_dim_iterates.
      change (replicate 2 0) with [0; 0]. change (replicate 2 1) with [1; 1]. change (replicate 2 rb) with [rb; rb].
      assert (prodl (counts [0; 0] [rb; rb] [1; 1]) = rb * rb) as En.
      { unfold counts, prodl, cdiv. cbn [zip zip_with fmap list_fmap fst snd foldr]. rewrite Nat.sub_0_r, Nat.sub_diag, Nat.add_0_r, Nat.div_1_r. lia. }
      rewrite En in Hl. rewrite Hl. done.
  Qed.
  Lemma alg_drf N (A B : list T) bi br : length A = N * N -> length B = N * N -> 0 < br -> 0 < N ->
    drf (algorithms_matrix_multiply N A B bi br).
  Proof.
    intros HA HB Hbr HN. destruct (alg_eq N A B bi br Hbr HN) as (l&Hnd&Hel&->).
    apply drf_bind; [apply drf_valloc|]. intros _. apply drf_bind; [|intros _; apply drf_vread].
    apply (drf_parL l _ (fun _ _ => False) (blk N br)); [done|..].
    - intros p (x&y&->&_)%Hel. apply alg_task_drf.
    - intros p (x&y&->&_)%Hel. by apply alg_task_acc.
    - intros p q loc' _ _ Hne Hp [[]|Hq]. apply Hne. by eapply blk_disj.
  Qed.

  Lemma alg_task_run N (A B : list T) bi br x y m :
    length A = N * N -> length B = N * N -> 0 < br -> 0 < bi -> (bi | N) ->
    x * br + br <= N -> y * br + br <= N ->
    Cpresent N m -> exists m', run (alg_task N A B bi br [x; y]) m = Ok (tt, m') /\ Cpresent N m' /\
      forall i j, i < br -> j < br ->
        m' !! (([0], (x * br + i) * N + (y * br + j)) : loc) = Some (VD (prod_t_chunks bi N A B (x * br + i) (y * br + j))).
  Proof.
    intros HA HB Hbr Hbi Hd Hx Hy Hm. rewrite alg_task_eq.
    destruct (alg_loop_ok N A B bi br (x * br) (y * br)) as (As&Bs&C&->&[HCl HC]); [assumption..|]. cbn [pbind snd].
    change (alg_write N C br (x * br) (y * br)) with (insert_submatrix N [0] C (x * br) (y * br) br).
    rewrite (insert_does N C (x * br) (y * br) br HCl m).
    - eexists. split; [reflexivity|]. split.
      + intros p Hp. destruct (Hm p Hp) as [t Ht]. rewrite applyM_lookup.
        exists (fold_upd (contrib (([0], p) : loc) (ins_us N C (x * br) (y * br) br)) t). by rewrite Ht.
      + intros i j Hi Hj. rewrite applyM_lookup, contrib_ins by lia.
        destruct (Hm ((x * br + i) * N + (y * br + j))) as [t ->]; [apply mixed_lt; lia|].
        simpl. do 2 f_equal. by apply (ent_eq _ _ _ _ _ (HC i j Hi Hj)).
    - intros u Hu. unfold ins_us in Hu. apply elem_of_list_bind in Hu as (i&Hu&Hi%elem_of_seq).
      apply elem_of_list_bind in Hu as (j&Hu&Hj%elem_of_seq). apply elem_of_list_singleton in Hu as ->. simpl.
      apply Hm. apply mixed_lt; lia.
  Qed.

  Lemma alg_order N (A B : list T) bi br :
    length A = N * N -> length B = N * N -> 0 < br -> 0 < bi -> (br | N) -> (bi | N) ->
    always (algorithms_matrix_multiply N A B bi br) (is_matrix N (prod_t_chunks bi N A B)).
  Proof.
    intros HA HB Hbr Hbi Hdr Hdi. destruct (Nat.eq_dec N 0) as [-> |HN].
    { unfold algorithms_matrix_multiply. destruct (Nat.eqb_spec br 0); [lia|]. cbn [Nat.mul].
      rewrite Nat.mod_0_l, Nat.div_0_l by lia. cbn. constructor. split; [done|]. intros; lia. }
    pose proof (alg_drf N A B bi br HA HB Hbr ltac:(lia)) as Hdrf.
    destruct (alg_eq N A B bi br Hbr ltac:(lia)) as (l&Hnd&Hel&He). rewrite He in Hdrf |- *. clear He.
    assert (Hrb : nblocks N br * br = N).
    { unfold nblocks. rewrite (proj2 (Nat.mod_divide N br ltac:(lia)) Hdr). cbn [Nat.eqb]. symmetry. by apply divide_div_mul. }
    assert (Hin : forall x, x < nblocks N br -> x * br + br <= N) by (intros; nia).
    destruct (run_valloc [0] (N * N) (nzero : T) ∅) as (m1&Hr1&Hz1&_).
    assert (Hm1 : Cpresent N m1) by (intros p Hp; exists nzero; by apply Hz1).
    destruct (run_parL_sep l (alg_task N A B bi br) (Cpresent N)
      (fun p m => forall x y i j, p = [x; y] -> i < br -> j < br ->
         m !! (([0], (x * br + i) * N + (y * br + j)) : loc) = Some (VD (prod_t_chunks bi N A B (x * br + i) (y * br + j)))) m1)
      as (m2&Hr2&_&HQ).
    - done.
    - done.
    - intros p m (x&y&->&Hx&Hy)%Hel Hm.
      destruct (alg_task_run N A B bi br x y m) as (m'&?&?&?); [first [assumption|by apply Hin]..|].
      exists m'. split_and!; [done..|]. intros x' y' i j [= <- <-]. auto.
    - intros p q m m' (x&y&->&Hx&Hy)%Hel (x'&y'&->&Hx'&Hy')%Hel Hne _ HQ Hr u v i j [= <- <-] Hi Hj.
      rewrite <- (HQ x y i j eq_refl Hi Hj). eapply (run_unchanged _ _ (alg_task N A B bi br [x'; y'])); [apply alg_task_acc; first [assumption|lia]|exact Hr|].
      intros Hb. apply Hne. eapply blk_disj; [|exact Hb]. exists x, y, i, j. split_and!; try done; by apply Hin.
    - destruct (matrix_of_cells N (prod_t_chunks bi N A B) (fun p => m2 !! (([0], p) : loc))) as (C&HC&Hcells).
      { intros i j Hi Hj. specialize (HQ [i / br; j / br]).
        pose proof (Nat.div_mod i br ltac:(lia)). pose proof (Nat.mod_upper_bound i br ltac:(lia)).
        pose proof (Nat.div_mod j br ltac:(lia)). pose proof (Nat.mod_upper_bound j br ltac:(lia)).
        replace i with (i / br * br + i mod br) by lia. replace j with (j / br * br + j mod br) by lia.
        apply (HQ ltac:(apply Hel; exists (i / br), (j / br); split_and!; [done|by apply nblocks_cover..]) _ _ _ _ eq_refl); done. }
      eapply (always_intro _ C m2); [done| |done].
      rewrite run_bind, Hr1, run_bind, Hr2. apply run_vread; [by destruct HC|done].
  Qed.
  Lemma alg_exact `{!Exact T} N (A B : list T) bi br :
    length A = N * N -> length B = N * N -> 0 < br -> 0 < bi -> (br | N) -> (bi | N) ->
    always (algorithms_matrix_multiply N A B bi br) (is_matrix N (prod_t_entry N A B)).
  Proof.
    intros HA HB Hbr Hbi Hdr Hdi. eapply must_mono; [|by apply alg_order]. intros C m.
    apply is_matrix_ext. intros i j _ _. by apply prod_t_chunks_exact.
  Qed.

  (** ** Misuse *)
  Lemma alg_zero_result N (A B : list T) bi :
    must_fail (fun e => e = EDivZero) (algorithms_matrix_multiply N A B bi 0) ∅.
  Proof.
    apply nopar_must_fail.
    - apply nopar_bind; [apply nopar_valloc|]. done.
    - unfold algorithms_matrix_multiply. rewrite run_bind.
      destruct (run_valloc [0] (N * N) (nzero : T) ∅) as (m1&->&_). done.
  Qed.
  Lemma alg_task_errD (E : err -> Prop) N (A B : list T) bi br p :
    E EOob -> (0 < bi \/ E EDiverge) -> errD E (alg_task N A B bi br p).
  Proof.
    intros HE Hbi. unfold alg_task.
    assert (forall d, errD E (ofres (T := T) (lget p d))) as Hl.
    { intros d. unfold lget. destruct (p !! d); done. }
    apply errD_bind; [apply Hl|]. intros x. apply errD_bind; [apply Hl|]. intros y.
    assert (forall (M s : list T) o kb, errD E (alg_copy M s N o kb br bi)) as Hc.
    { intros M s o kb. unfold alg_copy. apply errD_forS; [left; lia|]. intros i s' _. apply errD_forS; [left; lia|]. intros k s'' _.
      apply errD_bind; [by apply errD_vget|]. intros v. by apply errD_vset. }
    apply errD_bind.
    - apply errD_forS; [done|]. intros kb [[As Bs] C] _.
      apply errD_bind; [apply Hc|]. intros As'. apply errD_bind; [apply Hc|]. intros Bs'.
      apply errD_bind; [|done]. apply errD_foldP. intros [[u v] w] s _. apply errD_bind.
      + apply errD_forS; [left; lia|]. intros k acc _. do 2 (apply errD_bind; [by apply errD_vget|]; intros ?). done.
      + intros z. unfold vadd. apply errD_bind; [by apply errD_vget|]. intros c. by apply errD_vset.
    - intros st. unfold forP. apply errD_forS; [left; lia|]. intros i _ _. apply errD_forS; [left; lia|]. intros j _ _.
      apply errD_bind; [by apply errD_vget|]. intros c. by apply errD_wr.
  Qed.
  Lemma alg_fails (E : err -> Prop) N (A B : list T) bi br x y :
    length A = N * N -> length B = N * N -> 0 < br -> 0 < N -> E EOob -> (0 < bi \/ E EDiverge) ->
    x < nblocks N br -> y < nblocks N br ->
    (exists e, alg_loop N A B bi br (x * br) (y * br) = Err e) ->
    must_fail E (algorithms_matrix_multiply N A B bi br) ∅.
  Proof.
    intros HA HB Hbr HN HE Hbi Hx Hy [e0 Hl].
    pose proof (alg_drf N A B bi br HA HB Hbr HN) as Hdrf.
    destruct (alg_eq N A B bi br Hbr HN) as (l&Hnd&Hel&He). rewrite He in Hdrf |- *. clear He.
    destruct (run_valloc [0] (N * N) (nzero : T) ∅) as (m1&Hr1&Hz1&_).
    destruct (run_parL_fails l [x; y] (alg_task N A B bi br) m1) as [e He].
    - apply Hel. by exists x, y.
    - intros m. exists e0. rewrite alg_task_eq, Hl. done.
    - apply (drf_must_failD E _ _ e); [done| |apply datm_empty|].
      + apply errD_bind; [apply errD_valloc|]. intros _. apply errD_bind; [|intros _; by apply errD_vread].
        apply errD_parL. intros p _. by apply alg_task_errD.
      + rewrite run_bind, Hr1, run_bind, He. done.
  Qed.
  Lemma alg_partial_blocks N (A B : list T) bi br :
    length A = N * N -> length B = N * N -> 0 < br -> 0 < bi -> 0 < N -> ~ ((br | N) /\ (bi | N)) ->
    must_fail (fun e => e = EOob) (algorithms_matrix_multiply N A B bi br) ∅.
  Proof.
    intros HA HB Hbr Hbi HN Hnd.
    destruct (Nat.eq_dec (N mod br) 0) as [E0|E0].
    - assert (Hdr : (br | N)) by (apply Nat.mod_divide; [lia|exact E0]).
      assert (~ (bi | N)) as Hni by tauto.
      pose proof (divide_div_mul N br Hbr Hdr) as Hq.
      apply (alg_fails _ N A B bi br (N / br - 1) 0); [assumption..|reflexivity|by left| | |].
      + unfold nblocks. rewrite E0. cbn [Nat.eqb]. assert (N / br <> 0) by (intros Z; rewrite Z in Hq; lia). lia.
      + apply (nblocks_cover N br 0) in HN; [|assumption]. lia.
      + exists EOob. apply alg_loop_partial_input; [assumption..|].
        assert (N / br <> 0) by (intros Z; rewrite Z in Hq; lia). nia.
    - pose proof (Nat.div_mod N br ltac:(lia)). pose proof (Nat.mod_upper_bound N br ltac:(lia)).
      assert (nblocks N br = N / br + 1) as Hb. { unfold nblocks. destruct (Nat.eqb_spec (N mod br) 0); [lia|done]. }
      apply (alg_fails _ N A B bi br (N / br) 0); [assumption..|reflexivity|by left|lia|lia|].
      exists EOob. apply alg_loop_overshoots; [assumption..|]. left. nia.
  Qed.
  Lemma alg_zero_input N (A B : list T) br :
    length A = N * N -> length B = N * N -> 0 < br -> 0 < N ->
    must_fail (fun e => e = EDiverge) (algorithms_matrix_multiply N A B 0 br) ∅.
  Proof.
    intros HA HB Hbr HN.
    pose proof (alg_drf N A B 0 br HA HB Hbr HN) as Hdrf.
    destruct (alg_eq N A B 0 br Hbr HN) as (l&Hnd&Hel&He). rewrite He in Hdrf |- *. clear He.
    assert (Ht : forall p, p ∈ l -> alg_task N A B 0 br p = Err EDiverge).
    { intros p (x&y&->&_)%Hel. rewrite alg_task_eq, alg_loop_diverges by assumption. done. }
    destruct (run_valloc [0] (N * N) (nzero : T) ∅) as (m1&Hr1&Hz1&_).
    assert (parL l (alg_task N A B 0 br) = parL l (fun _ => Err EDiverge)) as Hp.
    { clear -Ht. induction l as [|p l IH]; [done|]. simpl. rewrite Ht by (apply elem_of_cons; by left). f_equal.
      apply IH. intros q Hq. apply Ht, elem_of_cons. by right. }
    rewrite Hp in *.
    assert (exists e, run (parL l (fun _ => Err EDiverge)) m1 = Fail e) as [e He].
    { destruct l as [|p l]; [|by exists EDiverge].
      pose proof (nblocks_cover N br 0 Hbr HN).
      exfalso. apply (proj1 (elem_of_nil [0; 0])). apply Hel. exists 0, 0. split_and!; [done|lia|lia]. }
    eapply must_fail_after; [apply nopar_valloc|exact Hr1|]. apply must_fail_bind.
    eapply (drf_must_fail _ _ _ e); [| |exact He].
    - apply (drf_parL l _ (fun _ _ => False) (fun _ _ => False)); [done..|naive_solver].
    - clear. induction l as [|p l IH]; [done|]. by split_and!.
  Qed.
End PAlg.
