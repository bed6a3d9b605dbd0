(** kernel_transposed_blocked when block_input does not divide N: exactly which
    calls stay inside the matrices, and what they compute. *)
From Verif Require Import Tools MKernels PKernels SpecDomain.

Section Over.
  Context {T : Type} `{NumOps T}.

  Lemma copy_over (M small : list T) N x kb br bi :
    length small = bi * br -> (x + br - 1) * N + kb + bi <= length M ->
    exists s, ktb_copy M small N x kb br bi = Ret s /\ length s = bi * br /\
      forall i k, i < br -> k < bi -> s !! (i * bi + k) = Some (ent N M (x + i) (kb + k)).
  Proof.
    intros Hs HM. unfold ktb_copy.
    rewrite (forS_grid (bi * br) br bi (fun i k _ => ent N M (x + i) (kb + k))).
    - eexists. split; [reflexivity|]. split; [by rewrite length_applyL|].
      intros i k Hi Hk'. rewrite grid_lookup by done.
      destruct (lookup_lt_is_Some_2 small (i * bi + k)) as [v ->]; [|done].
      rewrite Hs, (Nat.mul_comm bi br). by apply mixed_lt.
    - done.
    - intros i k s Hi Hk' Hl. rewrite <- Nat.add_assoc.
      assert ((x + i) * N <= (x + br - 1) * N) by (apply Nat.mul_le_mono_r; lia).
      destruct (lookup_lt_is_Some_2 M ((x + i) * N + (kb + k))) as [v Hv]; [lia|].
      rewrite (vget_lookup M _ _ Hv). rewrite (ent_eq _ _ _ _ _ Hv).
      cbn [pbind]. rewrite vset_ok; [done|]. rewrite Hl, (Nat.mul_comm bi br). by apply mixed_lt.
  Qed.
  Lemma copy_over_fails (M small : list T) N x kb br bi :
    length small = bi * br -> 0 < br -> 0 < bi -> length M < (x + br - 1) * N + kb + bi ->
    ktb_copy M small N x kb br bi = Err EOob.
  Proof.
    intros Hs Hbr Hbi HM. unfold ktb_copy.
    apply (forS_fails (fun s => length s = bi * br) EOob _ _ _ (br - 1)); [lia|done| | |].
    - intros i s _ Hs'. apply okI_forS1; [lia|done|]. intros k s' _ Hs''.
      eapply okI_bind; [apply okI_vget|]. intros v _. eapply okI_weak; [|apply okI_vset]. simpl; congruence.
    - apply elem_of_rng0; [lia|]. exists (br - 1). lia.
    - intros s Hs'. apply (forS_fails (fun s => length s = bi * br) EOob _ _ _ (bi - 1)); [lia|done| | |].
      + intros k s' _ Hs''.
        eapply okI_bind; [apply okI_vget|]. intros v _. eapply okI_weak; [|apply okI_vset]. simpl; congruence.
      + apply elem_of_rng0; [lia|]. exists (bi - 1). lia.
      + intros s' Hs''. rewrite vget_oob; [done|]. replace (x + (br - 1)) with (x + br - 1) by lia. lia.
  Qed.

  Lemma chunk_end N bi kb : 0 < bi -> kb ∈ rng 0 N bi -> kb + bi <= cdiv N bi * bi.
  Proof.
    intros Hbi Hkb. apply elem_of_rng0 in Hkb as (q&->&Hq); [|done].
    apply cdiv_spec in Hq; [|done]. nia.
  Qed.

  Lemma ktb_over (A B : list T) N x y br bi :
    (4 | br) -> 0 < bi -> (x + br - 1) * N + cdiv N bi * bi <= length A -> (y + br - 1) * N + cdiv N bi * bi <= length B ->
    exists C', kernel_transposed_blocked A B (replicate (br * br) nzero) N x y br bi = Ret C' /\
               is_block br x y (over_entry bi N A B) C'.
  Proof.
    intros H4 Hbi HA HB. unfold kernel_transposed_blocked. rewrite forS_step by done.
    set (cellv := fun kb i j => dot (fun k => nmul (ent N A (x + i) (kb + k)) (ent N B (y + j) (kb + k))) (seq 0 bi)).
    set (us := fun kb => rng 0 br 4 ≫= fun i => rng 0 br 2 ≫= fun j =>
       block_us br bi (fun i k => ent N A (x + i) (kb + k)) (fun j k => ent N B (y + j) (kb + k)) i j).
    assert (Hloop : forall kbs As Bs C, (forall kb, kb ∈ kbs -> kb + bi <= cdiv N bi * bi) ->
       length As = bi * br -> length Bs = bi * br -> length C = br * br ->
       exists As' Bs', 
       foldP kbs (fun k_block (st : list T * list T * list T) =>
        let '(A_small, B_small, C) := st in
        let! A_small := ktb_copy A A_small N x k_block br bi in
        let! B_small := ktb_copy B B_small N y k_block br bi in
        let! C := forS 0 br 4 (fun i C =>
                    forS 0 br 2 (fun j C =>
                      ktb_block A_small B_small br bi i j C) C) C in
        Ret (A_small, B_small, C)) (As, Bs, C) = Ret (As', Bs', applyL (kbs ≫= us) C)).
    { induction kbs as [|kb kbs IH]; intros As Bs C Hkbs HAs HBs HC; [by eexists _, _|].
      cbn [foldP].
      assert (kb + bi <= cdiv N bi * bi) by (apply Hkbs, elem_of_cons; by left).
      destruct (copy_over A As N x kb br bi) as (As1&->&HlA&HA1); [done|lia|]. cbn [pbind].
      destruct (copy_over B Bs N y kb br bi) as (Bs1&->&HlB&HB1); [done|lia|]. cbn [pbind].
      rewrite (ktb_loops_ok As1 Bs1 br bi (fun i k => ent N A (x + i) (kb + k)) (fun j k => ent N B (y + j) (kb + k)) HA1 HB1 C H4 HC).
      cbn [pbind]. destruct (IH As1 Bs1 (applyL (us kb) C)) as (As'&Bs'&He).
      - intros kb' Hkb'. apply Hkbs, elem_of_cons; by right.
      - done.
      - done.
      - by rewrite length_applyL.
      - exists As', Bs'. rewrite bind_cons, applyL_app. exact He. }
    destruct (Hloop (rng 0 N bi) (replicate (bi * br) nzero) (replicate (bi * br) nzero) (replicate (br * br) nzero)) as (As'&Bs'&->).
    - intros kb Hkb. by apply chunk_end.
    - apply replicate_length.
    - apply replicate_length.
    - apply replicate_length.
    - cbn [pbind]. eexists. split; [reflexivity|]. cbn. split; [by rewrite length_applyL, replicate_length|].
      intros i j Hi Hj. rewrite applyL_lookup, lookup_replicate_2 by (by apply mixed_lt). simpl. f_equal.
      rewrite contrib_bind.
      rewrite (bind_ext (fun kb => contrib (i * br + j) (us kb)) (fun kb => [fun c => nadd c (cellv kb i j)]) (rng 0 N bi))
        by (intros kb _; exact (contrib_ktb br bi _ _ i j H4 Hi Hj)).
      rewrite bind_ret_fmap.
      unfold over_entry. rewrite rng_explicit by done. rewrite Nat.sub_0_r, <- list_fmap_compose.
      assert (forall ks z, fold_upd ((fun (kb : nat) (c : T) => nadd c (cellv kb i j)) ∘ (fun q => 0 + q * bi) <$> ks) z
        = foldl (fun acc q => nadd acc (dot (fun k => nmul (ent N A (x + i) k) (ent N B (y + j) k)) (seq (q * bi) bi))) z ks) as Hf.
      { induction ks as [|q ks IH]; intros z; [done|]. simpl. unfold fold_upd in *. rewrite <- IH. simpl.
        f_equal. unfold cellv. f_equal. 
        replace (seq (q * bi) bi) with (Nat.add (q * bi) <$> seq 0 bi) by (rewrite fmap_add_seq; f_equal; lia).
        by rewrite dot_fmap. }
      apply Hf.
  Qed.

  Lemma ktb_over_fails (A B C : list T) N x y br bi :
    length C = br * br -> 0 < br -> 0 < bi -> 0 < N ->
    length A < (x + br - 1) * N + cdiv N bi * bi \/ length B < (y + br - 1) * N + cdiv N bi * bi ->
    kernel_transposed_blocked A B C N x y br bi = Err EOob.
  Proof.
    intros HC Hbr Hbi HN Hrow. unfold kernel_transposed_blocked.
    assert (Hc : 0 < cdiv N bi) by (apply cdiv_spec; lia).
    assert (Hlast : (cdiv N bi - 1) * bi < N) by (apply cdiv_spec; lia).
    assert (He : (cdiv N bi - 1) * bi + bi = cdiv N bi * bi) by (destruct (cdiv N bi); lia).
    erewrite (forS_fails (fun st : list T * list T * list T =>
       length st.1.1 = bi * br /\ length st.1.2 = bi * br /\ length st.2 = br * br) EOob _ _ _ ((cdiv N bi - 1) * bi)); [done|lia| | | |].
    - simpl. by rewrite !replicate_length.
    - intros kb [[As Bs] C'] _ (?&?&?). by apply okI_body.
    - apply elem_of_rng0; [lia|]. by exists (cdiv N bi - 1).
    - intros [[As Bs] C'] (HAs&HBs&HC'). simpl in *.
      destruct (decide (length A < (x + br - 1) * N + cdiv N bi * bi)) as [Hl|Hl].
      + rewrite (copy_over_fails A As) by (first [assumption|lia]). done.
      + destruct (okI_copy A As N x ((cdiv N bi - 1) * bi) br bi (bi * br) HAs) as [(As'&->&HAs')| ->]; [|done].
        cbn [pbind]. rewrite copy_over_fails by (first [assumption|lia]). done.
  Qed.
End Over.
