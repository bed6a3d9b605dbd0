(** src/variants/proposal.cpp *)
From Verif Require Import Base Conc ConcFacts LoopFacts MIter MTile SpecTile PTile PTile2 PUtil MTiled SpecTiled PTiled MApp.

Lemma copy_oob {T} ti (org : list T) : forall L R, (exists c, c ∈ L /\ length org <= place_original ti c.1 c.2) ->
  foldR L (copy_step ti org) R = Fail EOob.
Proof.
  induction L as [|c L IH]; intros R (c' & Hin & Hle); [by apply elem_of_nil in Hin|].
  cbn [foldR]. unfold copy_step at 1, lget. destruct (org !! place_original ti c.1 c.2) as [x|] eqn:E; cbn [rbind]; [|done].
  apply elem_of_cons in Hin as [->|Hin]; [apply lookup_lt_Some in E; lia|].
  unfold lset. destruct (_ <? _); cbn [rbind]; [|done]. apply IH. eauto.
Qed.
Lemma undo_oob {T} (T0 : T) R ti t i : length ti = 2 -> sizes_positive ti ->
  within t (counts_of ti) -> within i (sizes_of ti) -> length R <= undo_place ti t i -> undo_tiling T0 R ti = Fail EOob.
Proof.
  intros Hti Hp Ht Hi Hle. unfold undo_tiling. rewrite undo_body_fold by done.
  enough (He : forall L (U : list T), (exists c, c ∈ L /\ length U <= undo_place ti c.1 c.2) ->
    foldR L (fun c U => let? x := lget R (place_tiled ti c.1 c.2) in lset U (undo_place ti c.1 c.2) x) U = Fail EOob).
  { rewrite He; [done|]. exists (t, i). rewrite replicate_length. split; [by apply elem_of_coords|done]. }
  clear t i Ht Hi Hle. induction L as [|c L IH]; intros U (c' & Hin & Hl); [by apply elem_of_nil in Hin|]. cbn [foldR].
  unfold lget at 1. destruct (R !! place_tiled ti c.1 c.2); cbn [rbind]; [|done].
  unfold lset at 1. destruct (Nat.ltb_spec (undo_place ti c.1 c.2) (length U)); cbn [rbind]; [|done].
  apply IH. exists c'. rewrite insert_length. apply elem_of_cons in Hin as [->|Hin]; [lia|done].
Qed.
Lemma undo_no_return {T} (T0 : T) R ti : length ti = 2 -> sizes_positive ti -> tiled_entries ti <= length R ->
  (forall t i, within t (counts_of ti) -> within i (sizes_of ti) -> undo_place ti t i < length R) ->
  undo_tiling T0 R ti = Fail ENoReturn.
Proof.
  intros Hti Hp Hte Hlt. unfold undo_tiling. rewrite undo_body_fold by done.
  enough (He : forall L (U : list T), (forall c, c ∈ L -> c ∈ coords ti) -> length U = length R -> exists U',
    foldR L (fun c U => let? x := lget R (place_tiled ti c.1 c.2) in lset U (undo_place ti c.1 c.2) x) U = Ok U').
  { destruct (He (coords ti) (replicate (length R) T0)) as (U'&->); [done|by rewrite replicate_length|]. done. }
  induction L as [|[t i] L IH]; intros U Hin Hl; [by eexists|]. cbn [foldR fst snd].
  assert (Hc : (t, i) ∈ coords ti) by (apply Hin; set_solver). apply elem_of_coords in Hc as [Ht Hi].
  destruct (lookup_lt_is_Some_2 R (place_tiled ti t i)) as [x Hx].
  { eapply Nat.lt_le_trans; [by apply place_tiled_lt|exact Hte]. }
  rewrite (lget_Some _ _ _ Hx). cbn [rbind]. unfold lset at 1. pose proof (Hlt t i Ht Hi) as Hu. rewrite <- Hl in Hu.
  destruct (Nat.ltb_spec (undo_place ti t i) (length U)); [|lia]. cbn [rbind].
  apply IH; [set_solver|by rewrite insert_length].
Qed.

Section Proposal.
  Context {T : Type} `{NumOps T}.

  Lemma proposal_new_ok b N X Y K (A B : list T) : verify_blocking_setup b = true ->
    length A = N * N -> length B = N * N -> N <= X -> N <= Y -> N <= K ->
    exists At Bp, proposal_new b N X Y K A B = Ret (At, Bp) /\ length At = X * K.
  Proof.
    intros Hv HA HB HX HY HK. unfold proposal_new. rewrite Hv. cbn [negb].
    destruct (pad_A_ok N X K A HA HX HK) as (Ap&EA&LA&_). unfold pad_A in EA. rewrite (Nat.mul_comm K X), EA. cbn [pbind].
    destruct (transpose_rect_correct K X Ap LA) as (R&ER&HR). rewrite ER. cbn [pbind].
    destruct (pad_B_ok N Y K B HB HY HK) as (Bp&EB&LB&_). unfold pad_B in EB. rewrite EB. cbn [pbind].
    exists R, Bp. split; [done|]. by destruct HR.
  Qed.
  Lemma make_tiled_ub (T0 : T) org ti : length ti = 2 -> ubR (make_tiled T0 2 org ti).
  Proof.
    intros Hti. unfold make_tiled. rewrite Hti. cbn [Nat.eqb negb].
    enough (He : forall n cur p R, ubR (tile_dim 2 n cur org ti p R)) by apply He.
    induction n as [|n IH]; intros cur p R; cbn [tile_dim].
    - unfold tile_dim_indices. apply ubR_bind; [ubs|intros]. apply ubR_bind; [ubs|intros].
      apply ubR_bind; [unfold tile_max; ubs|intros]. unfold ml_loop_nest. ubs.
    - ubs. apply IH.
  Qed.

  Lemma proposal_ub b ts N (A B : list T) : verify_blocking_setup b = true ->
    0 < L3_X b -> 0 < L3_Y b -> 0 < L3_K b -> length A = N * N -> length B = N * N ->
    exists e, is_ub e = true /\ proposal_matrix_multiply b ts N A B = Err e.
  Proof.
    intros Hv HX HY HK HA HB. unfold proposal_matrix_multiply.
    destruct (proposal_new_ok b N (N + padding N (L3_X b)) (N + padding N (L3_Y b)) (N + padding N (L3_K b)) A B)
      as (At&Bp&->&HAt); [done|done|done|lia|lia|lia|]. cbn [pbind fst].
    pose proof (make_tiled_ub nzero At [Tiling ts (L3_X b); Tiling ts (L3_K b)] eq_refl) as Hu.
    destruct (make_tiled _ _ _ _) as [R1|e]; cbn [ofres pbind]; [|by exists e].
    pose proof (make_tiled_ub nzero At [Tiling ts (L3_Y b); Tiling ts (L3_K b)] eq_refl) as Hu'.
    destruct (make_tiled _ _ _ _) as [R2|e]; cbn [ofres pbind]; [|by exists e].
    match goal with |- context [undo_tiling nzero ?R ?ti] => destruct (undo_never nzero R ti) as (e&->&He) end.
    cbn in He. cbn [ofres pbind]. by exists e.
  Qed.

  Lemma shipped_verify : verify_blocking_setup shipped = true.
  Proof. reflexivity. Qed.
  Lemma proposal_shipped N (A B : list T) : length A = N * N -> length B = N * N ->
    proposal_matrix_multiply shipped 128 N A B = Err (if N <=? 256 then EOob else ENoReturn).
  Proof.
    intros HA HB. unfold proposal_matrix_multiply. cbn [L3_X L3_Y L3_K shipped].
    destruct (proposal_new_ok shipped N (N + padding N 420) (N + padding N 256) (N + padding N 256) A B)
      as (At&Bp&->&HAt); [done|done|done|lia|lia|lia|]. cbn [pbind fst].
    rewrite !round_up_padding in * by lia.
    assert (Hp : forall s s', sizes_positive [Tiling 128 s; Tiling 128 s']) by (intros; repeat constructor; cbn; lia).
    destruct (decide (N = 0)) as [->|HN].
    - assert (length At = 0) as HAt' by (rewrite HAt; reflexivity).
      pose proof (make_tiled_fold nzero At [Tiling 128 420; Tiling 128 256] (Hp _ _)) as Hf. cbn [length] in Hf.
      rewrite Hf, copy_oob; [done|]. exists ([0; 0], [0; 0]). split.
      + apply elem_of_coords. split.
        * change (within [0; 0] [3; 2]). repeat constructor; lia.
        * change (within [0; 0] [128; 128]). repeat constructor; lia.
      + lia.
    - assert (H420 : 420 <= SpecTiled.round_up N 420).
      { unfold SpecTiled.round_up. assert (1 <= cdiv N 420); [|lia]. unfold cdiv. apply Nat.div_le_lower_bound; lia. }
      assert (H256 : 256 <= SpecTiled.round_up N 256).
      { unfold SpecTiled.round_up. assert (1 <= cdiv N 256); [|lia]. unfold cdiv. apply Nat.div_le_lower_bound; lia. }
      assert (HAt1 : 420 * 256 <= length At) by (rewrite HAt; by apply Nat.mul_le_mono).
      destruct (make_tiled_ok_ge nzero At [Tiling 128 420; Tiling 128 256] (Hp _ _)) as (R1&E1&_).
      { unfold strides_of, extent_prod. cbn [fmap list_fmap stride foldr]. lia. }
      destruct (make_tiled_ok_ge nzero At [Tiling 128 256; Tiling 128 256] (Hp _ _)) as (R2&E2&_).
      { unfold strides_of, extent_prod. cbn [fmap list_fmap stride foldr]. lia. }
      cbn [length] in E1, E2. rewrite E1, E2. cbn [ofres pbind]. clear E1 E2 R1 R2.
      destruct (Nat.leb_spec N 256) as [Hle|Hgt].
      + rewrite (undo_oob nzero _ _ [2; 0] [1; 0]); [done|done|apply Hp| | |].
        * change (within [2; 0] [3; 2]). repeat constructor; lia.
        * change (within [1; 0] [128; 128]). repeat constructor; lia.
        * rewrite replicate_length.
          assert (Hr : SpecTiled.round_up N 420 = 420).
          { unfold SpecTiled.round_up. assert (cdiv N 420 = 1) as ->; [|lia]. unfold cdiv. symmetry. apply (Nat.div_unique _ _ _ (N - 1)); lia. }
          assert (Hr' : SpecTiled.round_up N 256 = 256).
          { unfold SpecTiled.round_up. assert (cdiv N 256 = 1) as ->; [|lia]. unfold cdiv. symmetry. apply (Nat.div_unique _ _ _ (N - 1)); lia. }
          rewrite Hr, Hr'. unfold undo_place, combine, row_major, strides_of, sizes_of. cbn [fmap list_fmap zip_with stride tile_size_dir].
          unfold reverse. cbn [rev_append]. cbn -[Nat.mul Nat.add]. lia.
      + assert (H512 : 512 <= SpecTiled.round_up N 256).
        { unfold SpecTiled.round_up. assert (2 <= cdiv N 256); [|lia]. unfold cdiv. apply Nat.div_le_lower_bound; lia. }
        assert (Hn : 420 * 512 <= SpecTiled.round_up N 420 * SpecTiled.round_up N 256) by (by apply Nat.mul_le_mono).
        rewrite undo_no_return; [done|done|apply Hp| |].
        * rewrite replicate_length. etransitivity; [apply counts_sizes_le|].
          unfold strides_of, extent_prod. cbn [fmap list_fmap stride foldr]. lia.
        * intros t i Ht Hi. change (within t [3; 2]) in Ht. change (within i [128; 128]) in Hi.
          rewrite replicate_length. unfold within in *.
          inversion Ht as [|t0 ? ts ? Ht0 Hts]; subst. inversion Hts as [|t1 ? ts' ? Ht1 Hts']; subst. inversion Hts'; subst.
          inversion Hi as [|i0 ? is ? Hi0 His]; subst. inversion His as [|i1 ? is' ? Hi1 His']; subst. inversion His'; subst.
          eapply Nat.lt_le_trans; [|exact Hn].
          unfold undo_place, combine, row_major, strides_of, sizes_of. cbn [fmap list_fmap zip_with stride tile_size_dir].
          unfold reverse. cbn [rev_append]. cbn -[Nat.mul Nat.add]. lia.
  Qed.
End Proposal.
