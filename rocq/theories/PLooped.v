(** Proofs about src/variants/looped.hpp. *)
From Verif Require Import Tools Tools2 MIter SpecIter PIter PIter2 MNaive PNaive MKernels PKernels PPseudo MVariants.

Lemma seq_split {Y} (c n : nat) (g : nat -> list Y) :
  seq 0 (n * c) ≫= g = seq 0 n ≫= fun z => seq 0 c ≫= fun x => g (z * c + x).
Proof.
  rewrite <- seq_blocks, bind_bind. apply bind_ext. intros z _.
  replace (seq (z * c) c) with (Nat.add (z * c) <$> seq 0 c) by (rewrite fmap_add_seq; f_equal; lia).
  by rewrite bind_fmap_l.
Qed.
Lemma seq_split3 {Y} c0 c1 c2 (g : nat -> list Y) :
  seq 0 (c2 * c1 * c0) ≫= g = seq 0 c2 ≫= fun z => seq 0 c1 ≫= fun y => seq 0 c0 ≫= fun x => g ((z * c1 + y) * c0 + x).
Proof. by rewrite (seq_split c0), (seq_split c1). Qed.

Lemma gpoint3 m0 m1 m2 x0 x1 x2 s0 s1 s2 c0 c1 c2 x y z :
  ecount m0 x0 s0 = c0 -> ecount m1 x1 s1 = c1 -> ecount m2 x2 s2 = c2 ->
  x < c0 -> y < c1 -> z < c2 ->
  gpoint [m0; m1; m2] [x0; x1; x2] [s0; s1; s2] ((z * c1 + y) * c0 + x) = [m0 + x * s0; m1 + y * s1; m2 + z * s2].
Proof.
  intros E0 E1 E2 Hx Hy Hz. unfold gpoint. cbn [ecounts digits at_dig]. rewrite E0, E1, E2.
  assert (forall q r c, r < c -> (q * c + r) mod c = r /\ (q * c + r) / c = q) as Hq.
  { intros q r c Hr. split; [rewrite Nat.add_comm, Nat.mod_add by lia; by apply Nat.mod_small|].
    rewrite Nat.div_add_l by lia. rewrite Nat.div_small by done. lia. }
  destruct (Hq (z * c1 + y) x c0 Hx) as [-> ->]. destruct (Hq z y c1 Hy) as [-> ->].
  rewrite (Nat.mod_small z c2) by done. done.
Qed.

Section PLooped.
  Context {T : Type} `{NumOps T}.
  Context (N : nat) (A B : list T) (HA : length A = N * N) (HB : length B = N * N).

  Definition lbody (cur_index : list nat) (C : list T) : prog T (list T) :=
    let! x := ofres (lget cur_index 0) in
    let! y := ofres (lget cur_index 1) in
    let! k := ofres (lget cur_index 2) in
    let! a := vget A (x * N + k) in
    let! b := vget B (y * N + k) in
    vadd C (x * N + y) (nmul a b).
  Definition lterm (x y k : nat) : T := nmul (ent N A x k) (ent N B y k).
  Definition lus (p : list nat) : list (nat * (T -> T)) :=
    match p with [x; y; k] => [(x * N + y, fun c => nadd c (lterm x y k))] | _ => [] end.

  Lemma lbody_ok x y k C : x < N -> y < N -> k < N -> length C = N * N ->
    lbody [x; y; k] C = Ret (applyL (lus [x; y; k]) C).
  Proof.
    intros Hx Hy Hk HC. unfold lbody. cbn [lget ofres lookup list_lookup pbind].
    rewrite (vget_lookup A _ (ent N A x k)) by (by apply ent_lookup_sq). cbn [pbind].
    rewrite (vget_lookup B _ (ent N B y k)) by (by apply ent_lookup_sq). cbn [pbind].
    rewrite vadd_ok; [done|]. rewrite HC. by apply mixed_lt.
  Qed.

  (** One block: the inner level of looped_iterate. *)
  Definition pts3 (x y k br bi : nat) : list (list nat) :=
    seq 0 bi ≫= fun c => seq 0 br ≫= fun b => seq 0 br ≫= fun a => [[x + a; y + b; k + c]].
  Lemma ecount_1 m n : 0 < n -> ecount m (m + n) 1 = n.
  Proof. intros Hn. unfold ecount, cdiv. rewrite Nat.sub_diag, Nat.add_0_r, Nat.div_1_r. lia. Qed.
  Lemma looped_block x y k br bi C : 0 < br -> 0 < bi ->
    looped_iterate [[1; 1; 1]] [x; y; k] [x + br; y + br; k + bi] lbody C = foldP (pts3 x y k br bi) lbody C.
  Proof.
    intros Hbr Hbi.
    assert (En : looped_count 3 [x; y; k] [x + br; y + br; k + bi] [1; 1; 1] = Ok (bi * br * br)).
    { unfold looped_count. cbn -[Nat.div Nat.mul]. f_equal. rewrite !Nat.div_1_r.
      replace (x + br - x) with br by lia. replace (y + br - y) with br by lia. replace (k + bi - k) with bi by lia. lia. }
    assert (Ec : ecounts [x; y; k] [x + br; y + br; k + bi] [1; 1; 1] = [br; br; bi]).
    { cbn [ecounts]. by rewrite !ecount_1. }
    cbn [looped_iterate length Nat.eqb negb]. rewrite En. cbn [ofres pbind].
    rewrite dim_index_iterator_ok by done. cbn [ofres pbind].
    rewrite iterates_ok; [|done|done|repeat constructor|].
    - cbn [ofres pbind]. f_equal. rewrite <- bind_ret_fmap, seq_split3. unfold pts3.
      apply bind_ext. intros c Hc%elem_of_seq. apply bind_ext. intros b Hb%elem_of_seq.
      apply bind_ext. intros a Ha%elem_of_seq.
      rewrite (gpoint3 _ _ _ _ _ _ _ _ _ br br bi); [|by apply ecount_1..|lia|lia|lia].
      by rewrite !Nat.mul_1_r.
    - rewrite Ec. cbn. lia.
  Qed.
  Lemma pts3_elem x y k br bi p : p ∈ pts3 x y k br bi ->
    exists a b c, p = [x + a; y + b; k + c] /\ a < br /\ b < br /\ c < bi.
  Proof.
    unfold pts3. intros (c&(b&(a&->%elem_of_list_singleton&Ha%elem_of_seq)%elem_of_list_bind&Hb%elem_of_seq)%elem_of_list_bind&Hc%elem_of_seq)%elem_of_list_bind.
    exists a, b, c. split_and!; [done|lia..].
  Qed.
  Lemma looped_block_ok x y k br bi C : 0 < br -> 0 < bi -> x + br <= N -> y + br <= N -> k + bi <= N ->
    length C = N * N ->
    looped_iterate [[1; 1; 1]] [x; y; k] [x + br; y + br; k + bi] lbody C = Ret (applyL (pts3 x y k br bi ≫= lus) C).
  Proof.
    intros Hbr Hbi Hx Hy Hk HC. rewrite looped_block by done. apply (foldP_applyL (N * N)); [done|].
    intros p s (a&b&c&->&Ha&Hb&Hc)%pts3_elem Hs. apply lbody_ok; lia.
  Qed.

  Definition kterms (i j : nat) (ks : list nat) : list (T -> T) := (fun k c => nadd c (lterm i j k)) <$> ks.
  Lemma fold_kterms i j ks z : fold_upd (kterms i j ks) z = foldl (fun acc k => nadd acc (lterm i j k)) z ks.
  Proof. revert z. induction ks as [|k ks IH]; intros z; [done|]. unfold fold_upd, kterms in *. simpl. by rewrite IH. Qed.
  Lemma contrib_block i j x y k br bi : i < N -> j < N -> x + br <= N -> y + br <= N ->
    contrib (i * N + j) (pts3 x y k br bi ≫= lus) =
    if decide (x <= i < x + br /\ y <= j < y + br) then kterms i j (seq k bi) else [].
  Proof.
    intros Hi Hj Hx Hy. unfold pts3. rewrite !bind_bind.
    setoid_rewrite contrib_bind. case_decide as Hin.
    - replace (seq k bi) with (Nat.add k <$> seq 0 bi) by (rewrite fmap_add_seq; f_equal; lia).
      unfold kterms. rewrite <- list_fmap_compose, <- bind_ret_fmap. apply bind_ext. intros c _.
      rewrite bind_bind, contrib_bind.
      rewrite (bind_select _ _ (j - y)); [|apply NoDup_seq|apply elem_of_seq; lia|].
      + rewrite bind_bind, contrib_bind. rewrite (bind_select _ _ (i - x)); [|apply NoDup_seq|apply elem_of_seq; lia|].
        * cbn [mbind list_bind lus app]. replace (x + (i - x)) with i by lia. replace (y + (j - y)) with j by lia. apply contrib_single_eq.
        * intros a Ha%elem_of_seq Hne. cbn [mbind list_bind lus app]. apply contrib_single_ne. intros He%mixed_inj; lia.
      + intros b Hb%elem_of_seq Hne. rewrite bind_bind, contrib_bind. apply bind_nil. intros a Ha%elem_of_seq.
        cbn [mbind list_bind lus app]. apply contrib_single_ne. intros He%mixed_inj; lia.
    - apply bind_nil. intros c _. rewrite bind_bind, contrib_bind. apply bind_nil. intros b Hb%elem_of_seq.
      rewrite bind_bind, contrib_bind. apply bind_nil. intros a Ha%elem_of_seq.
      cbn [mbind list_bind lus app]. apply contrib_single_ne. intros He%mixed_inj; lia.
  Qed.

  (** ** The outer level *)
  Definition louter (br bi : nat) : list (list nat) :=
    gpoint [0; 0; 0] [N; N; N] [br; br; bi] <$> seq 0 (N / bi * (N / br) * (N / br)).
  Definition lblock (br bi : nat) (cur : list nat) (s : list T) : prog T (list T) :=
    match cur with
    | [x; y; k] => looped_iterate [[1; 1; 1]] cur [x + br; y + br; k + bi] lbody s
    | _ => Err EOob
    end.
  Lemma louter_shape br bi p : p ∈ louter br bi -> exists x y k, p = [x; y; k].
  Proof. intros (q&->&_)%elem_of_list_fmap. unfold gpoint. cbn [ecounts digits at_dig]. by eexists _, _, _. Qed.
  Lemma ecount_ge b : 0 < b -> N / b <= ecount 0 N b.
  Proof.
    intros Hb. clear HA HB. unfold ecount, cdiv. rewrite Nat.sub_0_r.
    assert (N / b <= (N + (b - 1)) / b) by (apply Nat.div_le_mono; lia). lia.
  Qed.
  Lemma looped_eq br bi : 0 < br -> 0 < bi ->
    looped_matrix_multiply N A B br bi =
    foldP (louter br bi) (fun cur s =>
      let! recursive_max := ofres (add_block 3 cur [br; br; bi]) in
      looped_iterate [[1; 1; 1]] cur recursive_max lbody s) (replicate (N * N) nzero).
  Proof.
    intros Hbr Hbi. clear HA HB. unfold looped_matrix_multiply.
    assert (En : looped_count 3 [0; 0; 0] [N; N; N] [br; br; bi] = Ok (N / bi * (N / br) * (N / br))).
    { unfold looped_count. cbn -[Nat.div Nat.mul Nat.sub]. rewrite Nat.sub_0_r.
      destruct br as [|br']; [lia|]. destruct bi as [|bi']; [lia|]. cbn -[Nat.div Nat.mul Nat.sub]. f_equal. lia. }
    cbn [looped_iterate length Nat.eqb negb]. rewrite En. cbn [ofres pbind].
    rewrite dim_index_iterator_ok by done. cbn [ofres pbind].
    rewrite iterates_ok; [done|done|done|repeat constructor; lia|].
    cbn [ecounts prodl foldr]. rewrite Nat.mul_1_r.
    pose proof (ecount_ge br Hbr). pose proof (ecount_ge bi Hbi).
    rewrite <- Nat.mul_assoc, (Nat.mul_comm (N / bi)), <- Nat.mul_assoc.
    repeat apply Nat.mul_le_mono; done.
  Qed.
  Lemma louter_body br bi cur s : cur ∈ louter br bi ->
    (let! recursive_max := ofres (add_block 3 cur [br; br; bi]) in
      looped_iterate [[1; 1; 1]] cur recursive_max lbody s) = lblock br bi cur s.
  Proof. intros (x&y&k&->)%louter_shape. done. Qed.

  (** Whole blocks in x and y. *)
  Lemma louter_exact br bi (g : list nat -> list (nat * (T -> T))) : 0 < br -> 0 < bi -> 0 < N -> (br | N) ->
    louter br bi ≫= g = seq 0 (N / bi) ≫= fun z => seq 0 (N / br) ≫= fun y => seq 0 (N / br) ≫= fun x =>
      g [x * br; y * br; z * bi].
  Proof.
    intros Hbr Hbi HN Hd. unfold louter. rewrite bind_fmap_l, seq_split3.
    apply bind_ext. intros z Hz%elem_of_seq. apply bind_ext. intros y Hy%elem_of_seq. apply bind_ext. intros x Hx%elem_of_seq.
    assert (Eb : ecount 0 N br = N / br).
    { unfold ecount. rewrite Nat.sub_0_r. assert (cdiv N br = N / br) as ->; [|lia].
      unfold cdiv. rewrite (divide_div_mul N br Hbr Hd) at 1. rewrite Nat.div_add_l by lia. rewrite (Nat.div_small (br - 1)); lia. }
    rewrite (gpoint3 _ _ _ _ _ _ _ _ _ (N / br) (N / br) (ecount 0 N bi)); [done|done|done|done|lia|lia|].
    pose proof (ecount_ge bi Hbi). lia.
  Qed.
  Lemma looped_whole br bi : 0 < br -> 0 < bi -> 0 < N -> (br | N) ->
    exists C, looped_matrix_multiply N A B br bi = Ret C /\
      is_matrix N (fun i j => dot (lterm i j) (seq 0 (N / bi * bi))) C.
  Proof.
    intros Hbr Hbi HN Hd. rewrite looped_eq by done.
    pose proof (divide_div_mul N br Hbr Hd) as Hq.
    pose proof (Nat.div_mod N bi ltac:(lia)) as Hqi.
    assert (Hin : forall x, x < N / br -> x * br + br <= N) by (intros; nia).
    assert (Hink : forall x, x < N / bi -> x * bi + bi <= N) by (intros; nia).
    assert (Hel : forall p, p ∈ louter br bi -> exists x y z, p = [x * br; y * br; z * bi] /\ x < N / br /\ y < N / br /\ z < N / bi).
    { intros p Hp. unfold louter in Hp. rewrite <- bind_ret_fmap, seq_split3 in Hp.
      apply elem_of_list_bind in Hp as (z&Hp&Hz%elem_of_seq). apply elem_of_list_bind in Hp as (y&Hp&Hy%elem_of_seq).
      apply elem_of_list_bind in Hp as (x&Hp&Hx%elem_of_seq). apply elem_of_list_singleton in Hp as ->.
      exists x, y, z. split_and!; [|lia..].
      assert (Eb : ecount 0 N br = N / br).
      { unfold ecount. rewrite Nat.sub_0_r. assert (cdiv N br = N / br) as ->; [|lia].
        unfold cdiv. rewrite Hq at 1. rewrite Nat.div_add_l by lia. rewrite (Nat.div_small (br - 1)); lia. }
      rewrite (gpoint3 _ _ _ _ _ _ _ _ _ (N / br) (N / br) (ecount 0 N bi)); [done|done|done|done|lia|lia|].
      pose proof (ecount_ge bi Hbi). lia. }
    set (bus := fun p : list nat => match p with [x; y; k] => pts3 x y k br bi ≫= lus | _ => [] end).
    rewrite (foldP_applyL (N * N) _ _ bus).
    - eexists. split; [reflexivity|]. split; [by rewrite length_applyL, replicate_length|].
      intros i j Hi Hj. rewrite applyL_lookup, lookup_replicate_2 by (by apply mixed_lt). simpl. f_equal.
      rewrite louter_exact by done. rewrite contrib_bind.
      rewrite (bind_ext _ (fun z => kterms i j (seq (z * bi) bi))).
      + unfold kterms. rewrite <- fmap_bind_r, seq_blocks. fold (kterms i j (seq 0 (N / bi * bi))).
        rewrite fold_kterms. done.
      + intros z _. rewrite contrib_bind.
        pose proof (Nat.div_mod i br ltac:(lia)). pose proof (Nat.mod_upper_bound i br ltac:(lia)).
        pose proof (Nat.div_mod j br ltac:(lia)). pose proof (Nat.mod_upper_bound j br ltac:(lia)).
        assert (i / br < N / br) by (apply Nat.div_lt_upper_bound; lia).
        assert (j / br < N / br) by (apply Nat.div_lt_upper_bound; lia).
        rewrite (bind_select _ _ (j / br)); [|apply NoDup_seq|apply elem_of_seq; lia|].
        * rewrite contrib_bind. rewrite (bind_select _ _ (i / br)); [|apply NoDup_seq|apply elem_of_seq; lia|].
          -- unfold bus. rewrite contrib_block by auto. rewrite decide_True by lia. done.
          -- intros x Hx%elem_of_seq Hne. unfold bus. rewrite contrib_block; [|done|done|apply Hin; lia|by apply Hin].
             rewrite decide_False; [done|]. intros [? ?]. apply Hne. apply Nat.div_unique with (i - x * br); lia.
        * intros y Hy%elem_of_seq Hne. rewrite contrib_bind. apply bind_nil. intros x Hx%elem_of_seq.
          unfold bus. rewrite contrib_block; [|done|done|apply Hin; lia|apply Hin; lia].
          rewrite decide_False; [done|]. intros [? ?]. apply Hne. apply Nat.div_unique with (j - y * br); lia.
    - apply replicate_length.
    - intros p s Hp Hs. rewrite louter_body by done. apply Hel in Hp as (x&y&z&->&Hx&Hy&Hz).
      apply looped_block_ok; auto.
  Qed.

  Lemma looped_none br bi : 0 < br -> 0 < bi -> N < br \/ N < bi ->
    looped_matrix_multiply N A B br bi = Ret (replicate (N * N) nzero).
  Proof.
    intros Hbr Hbi Hlt. clear HA HB. rewrite looped_eq by done. unfold louter.
    assert (N / bi * (N / br) * (N / br) = 0) as ->; [|done].
    destruct Hlt as [Hlt|Hlt]; rewrite (Nat.div_small N _ Hlt); lia.
  Qed.
  Lemma looped_zero_block br bi : br = 0 \/ bi = 0 -> looped_matrix_multiply N A B br bi = Err EDivZero.
  Proof.
    intros Hz. clear HA HB. unfold looped_matrix_multiply. cbn [looped_iterate length Nat.eqb negb].
    assert (looped_count 3 [0; 0; 0] [N; N; N] [br; br; bi] = Fail EDivZero) as ->; [|done].
    unfold looped_count. cbn -[Nat.div Nat.mul Nat.sub].
    destruct br as [|br']; [done|]. cbn -[Nat.div Nat.mul Nat.sub]. by destruct Hz as [| ->].
  Qed.

  (** ** Blocks that do not divide N *)
  Lemma okI_lbody p C : (exists x y k, p = [x; y; k]) -> length C = N * N -> okI (fun C => length C = N * N) EOob (lbody p C).
  Proof.
    intros (x&y&k&->) HC. unfold lbody. cbn [lget ofres lookup list_lookup pbind].
    do 2 (eapply okI_bind; [apply okI_vget|]; intros ? _). by apply okI_vadd.
  Qed.
  Lemma okI_lblock br bi x y k C : 0 < br -> 0 < bi -> length C = N * N ->
    okI (fun C => length C = N * N) EOob (lblock br bi [x; y; k] C).
  Proof.
    intros Hbr Hbi HC. unfold lblock. rewrite looped_block by done. apply okI_foldP; [done|].
    intros p s (a&b&c&->&_)%pts3_elem Hs. apply okI_lbody; [by eexists _, _, _|done].
  Qed.
  Lemma looped_overshoots br bi : 0 < br -> 0 < bi -> ~ (br | N) -> br <= N -> bi <= N -> 2 <= N / br * (N / bi) ->
    looped_matrix_multiply N A B br bi = Err EOob.
  Proof.
    intros Hbr Hbi Hnd Hb1 Hb2 H2. rewrite looped_eq by done.
    assert (Hm : N mod br <> 0) by (intros Hm; apply Hnd, Nat.mod_divide; [lia|exact Hm]).
    pose proof (Nat.div_mod N br ltac:(lia)) as Hdm. pose proof (Nat.mod_upper_bound N br ltac:(lia)) as Hmb.
    assert (Eb : ecount 0 N br = N / br + 1).
    { unfold ecount, cdiv. rewrite Nat.sub_0_r. assert ((N + (br - 1)) / br = N / br + 1) as ->; [|lia].
      symmetry. apply Nat.div_unique with (N mod br - 1); nia. }
    assert (0 < N / br) by (apply Nat.div_str_pos; lia).
    assert (0 < N / bi) by (apply Nat.div_str_pos; lia).
    apply (foldP_fails (fun s => length s = N * N) EOob _ [N / br * br; 0; 0]).
    - apply replicate_length.
    - intros p s Hp Hs. rewrite louter_body by done. apply louter_shape in Hp as (x&y&k&->). by apply okI_lblock.
    - apply elem_of_list_fmap. exists (N / br). split.
      + pose proof (gpoint3 0 0 0 N N N br br bi (N / br + 1) (N / br + 1) (ecount 0 N bi) (N / br) 0 0) as Hg.
        cbn [Nat.mul Nat.add] in Hg. rewrite Hg; [done|done|done|done|lia|lia|unfold ecount; lia].
      + apply elem_of_seq. split; [lia|]. assert (2 * (N / br) <= N / br * (N / bi) * (N / br)) by (by apply Nat.mul_le_mono_r). nia.
    - intros s Hs. change (lblock br bi [N / br * br; 0; 0] s = Err EOob). unfold lblock. rewrite looped_block by done.
      apply (foldP_fails (fun s => length s = N * N) EOob _ [N; 0; 0]).
      + done.
      + intros p s' (a&b&c&->&_)%pts3_elem Hs'. apply okI_lbody; [by eexists _, _, _|done].
      + unfold pts3. apply elem_of_list_bind. exists 0. split; [|apply elem_of_seq; lia].
        apply elem_of_list_bind. exists 0. split; [|apply elem_of_seq; lia].
        apply elem_of_list_bind. exists (N mod br). split; [|apply elem_of_seq; lia].
        apply elem_of_list_singleton. f_equal. lia.
      + intros s' Hs'. unfold lbody. cbn [lget ofres lookup list_lookup pbind]. rewrite (vget_oob A); [done|]. lia.
  Qed.
  Lemma looped_single br bi : 0 < br -> 0 < bi -> N / br = 1 -> N / bi = 1 ->
    exists C, looped_matrix_multiply N A B br bi = Ret C /\
      is_matrix N (fun i j => if decide (i < br /\ j < br) then dot (lterm i j) (seq 0 bi) else nzero) C.
  Proof.
    intros Hbr Hbi E1 E2. rewrite looped_eq by done.
    pose proof (Nat.div_mod N br ltac:(lia)) as Hd1. pose proof (Nat.div_mod N bi ltac:(lia)) as Hd2. rewrite E1 in Hd1. rewrite E2 in Hd2.
    assert (louter br bi = [[0; 0; 0]]) as ->.
    { unfold louter. rewrite E1, E2. cbn [Nat.mul Nat.add seq fmap list_fmap]. by rewrite gpoint_0. }
    cbn [foldP]. change (ofres (add_block 3 [0; 0; 0] [br; br; bi])) with (Ret (T := T) [0 + br; 0 + br; 0 + bi]). cbn [pbind].
    rewrite looped_block_ok; [|done|done|lia|lia|lia|apply replicate_length]. cbn [pbind].
    eexists. split; [reflexivity|]. split; [by rewrite length_applyL, replicate_length|].
    intros i j Hi Hj. rewrite applyL_lookup, lookup_replicate_2 by (by apply mixed_lt). simpl. f_equal.
    rewrite contrib_block; [|done|done|lia|lia].
    destruct (decide (i < br /\ j < br)) as [Hij|Hij].
    - rewrite decide_True by lia. by rewrite fold_kterms.
    - rewrite decide_False by lia. done.
  Qed.
End PLooped.

Section PLoopedAll.
  Context {T : Type} `{NumOps T}.
  Context (N : nat) (A B : list T).

  Lemma looped_zeros br bi : 0 < br -> 0 < bi -> N < br \/ N < bi ->
    always (looped_matrix_multiply N A B br bi) (is_zero N).
  Proof.
    intros Hr Hi Hb. rewrite looped_none by assumption. constructor. split; [apply replicate_length|].
    intros i j Hi' Hj'. apply lookup_replicate_2. by apply mixed_lt.
  Qed.
  Lemma looped_zero_block_fails br bi : br = 0 \/ bi = 0 ->
    must_fail (fun e => e = EDivZero) (looped_matrix_multiply N A B br bi) ∅.
  Proof. intros Hb. rewrite looped_zero_block by assumption. by constructor. Qed.

  Context (HA : length A = N * N) (HB : length B = N * N).
  Lemma looped_overshoots_fails br bi : 0 < br <= N -> 0 < bi <= N -> ~ (br | N) -> 2 <= N / br * (N / bi) ->
    must_fail (fun e => e = EOob) (looped_matrix_multiply N A B br bi) ∅.
  Proof. intros [? ?] [? ?] Hd ?. rewrite looped_overshoots by assumption. by constructor. Qed.
  Lemma looped_single_always br bi : 0 < br -> 0 < bi -> N / br = 1 -> N / bi = 1 ->
    always (looped_matrix_multiply N A B br bi)
      (is_matrix N (fun i j => if decide (i < br /\ j < br)
                               then dot (fun k => nmul (ent N A i k) (ent N B j k)) (seq 0 bi) else nzero)).
  Proof.
    intros ? ? ? ?. destruct (looped_single N A B HA HB br bi) as (C&->&HC); [assumption..|]. constructor. exact HC.
  Qed.
  Lemma looped_truncated br bi : 0 < br -> 0 < bi -> 0 < N -> (br | N) ->
    always (looped_matrix_multiply N A B br bi)
      (is_matrix N (fun i j => dot (fun k => nmul (ent N A i k) (ent N B j k)) (seq 0 (N / bi * bi)))).
  Proof.
    intros ? ? ? ?. destruct (looped_whole N A B HA HB br bi) as (C&->&HC); [assumption..|]. constructor. exact HC.
  Qed.
  Lemma looped_eq_naive br bi : 0 < br -> 0 < bi -> (br | N) -> (bi | N) ->
    exists C, is_product_t N A B C /\
      always (looped_matrix_multiply N A B br bi) (fun C' => C' = C) /\
      always (naive_matrix_multiply_transposed N A B) (fun C' => C' = C).
  Proof.
    intros Hr Hi Dr Di. destruct (is_matrix_exists N (prod_t_entry N A B)) as [C HC]. exists C. split; [exact HC|].
    split; (eapply always_unique; [|exact HC|intros C' HC'; by eapply is_matrix_unique]).
    - destruct (decide (N = 0)) as [E|E].
      + eapply must_mono; [|apply looped_zeros; [done|done|lia]]. intros C' m [HL Hz]. split; [done|]. intros; lia.
      + eapply must_mono; [|apply (looped_truncated br bi); [done|done|lia|assumption]].
        intros C' m [HL HC']. split; [done|]. intros i j Hi' Hj'. rewrite HC' by done.
        by rewrite <- (divide_div_mul N bi Hi Di).
    - by apply naive_transposed_correct.
  Qed.
End PLoopedAll.
