(** Word arithmetic without wrap-around: algorithms, looped and semi. *)
From Verif Require Import LoopFacts Tools MWord2 PWord PWord2.

Section Variants.
  Context (M : nat) {T : Type} `{NumOps T}.

  (** ** algorithms *)
  Lemma index_iterates_w_eq s n x y w :
    0 < s -> s * s < M -> y < s -> x * s + y + n <= s * s ->
    index_iterates_w M n s (x, y, w) = index_iterates n s (x, y, w).
  Proof.
    intros Hs HM. revert x y w. induction n as [|n IH]; intros x y w Hy Hn; [done|].
    cbn [index_iterates_w index_iterates]. f_equal. unfold index_iterator_increment_w, index_iterator_increment.
    assert (x < s) by nia. assert (s <= s * s) by nia. rewrite wsub_small by lia.
    destruct (y =? s - 1) eqn:E.
    - apply Nat.eqb_eq in E. rewrite wadd_small by lia. apply IH; [lia|]. lia.
    - apply Nat.eqb_neq in E. rewrite wadd_small by lia. apply IH; lia.
  Qed.
  Lemma index_iterates_in s n x y w x' y' w' :
    y < s -> x * s + y + n <= s * s -> (x', y', w') ∈ index_iterates n s (x, y, w) -> x' < s /\ y' < s.
  Proof.
    revert x y w. induction n as [|n IH]; intros x y w Hy Hn; cbn [index_iterates]; [by intros ?%elem_of_nil|].
    intros [Hq|Hq]%elem_of_cons.
    - injection Hq as -> -> ->. split; [nia|lia].
    - unfold index_iterator_increment in Hq. destruct (y =? s - 1) eqn:E; (eapply IH; [| |exact Hq]).
      + lia.
      + apply Nat.eqb_eq in E. lia.
      + apply Nat.eqb_neq in E. lia.
      + lia.
  Qed.

  Definition alg_fits (N br bi : nat) : Prop := (N + 2 * br + 2) * (N + br + bi) + 2 < M.

  Lemma alg_task_w_eq N (A B : list T) bi br cur rb :
    0 < br -> rb * br <= N + br -> alg_fits N br bi -> bnd rb cur ->
    alg_task_w M N A B bi br cur = alg_task N A B bi br cur.
  Proof.
    intros Hbr Hrb Hfit Hcur. unfold alg_fits in Hfit. unfold alg_task_w, alg_task.
    assert (N * N + N * br + N * bi + 2 * (br * N) + 2 * (br * br) + 2 * (br * bi) + 2 * N + 2 * br + 2 * bi + 2 < M) as HM by nia.
    clear Hfit.
    apply ofres_bind_eq. intros bx Ex. apply ofres_bind_eq. intros byy Ey.
    apply (lget_bnd rb) in Ex, Ey; [|done..].
    assert (bx * br <= N + br) by nia. assert (byy * br <= N + br) by nia.
    rewrite (wmul_small M bx), (wmul_small M byy) by lia.
    rewrite (wmul_small M bi), (wmul_small M br) by lia. cbv zeta.
    assert (forall o x : nat, o <= N + br -> x < br -> (o + x) * N + N <= N * N + 2 * (br * N)) as Hidx.
    { intros o x Ho Hx. assert ((o + x) <= N + 2 * br - 1) by lia.
      assert ((o + x) * N + N = (o + x + 1) * N) as -> by lia.
      replace (N * N + 2 * (br * N)) with ((N + 2 * br) * N) by lia. apply Nat.mul_le_mono_r. lia. }
    wstep.
    - wstep. destruct s as [[As Bs] Ci].
      assert (forall (V s : list T) o, o <= N + br -> alg_copy_w M V s N o i br bi = alg_copy V s N o i br bi) as Hcp.
      { intros V s' o Ho. unfold alg_copy_w, alg_copy. wstep. wstep. pose proof (Hidx o i0 Ho ltac:(lia)).
        assert (i0 * bi + i1 < br * bi) by (apply idx_lt; lia). repeat wstep. }
      rewrite !Hcp by done. wstep; [done|]. wstep; [done|]. wstep; [|done].
      unfold alg_inner_w, alg_inner. rewrite wmul_small by lia. rewrite index_iterates_w_eq by lia.
      apply foldP_eq. intros [[x' y'] w'] s' Hin. apply index_iterates_in in Hin as [Hx Hy]; [|lia..].
      assert ((x' + 1) * bi <= br * bi) by (apply Nat.mul_le_mono_r; lia).
      assert (y' * bi <= br * bi) by (apply Nat.mul_le_mono_r; lia).
      assert (x' + 1 < M) by lia.
      rewrite !wmul_small, wadd_small; [done| | | |]; rewrite ?wadd_small by lia; lia.
    - wstep. wstep. pose proof (Hidx (bx * br) i ltac:(lia) ltac:(lia)).
      assert (i * br + i0 < br * br) by (apply idx_lt; lia).
      wstep; [wstep|]. f_equal. wexp. nia.
  Qed.

  Lemma algorithms_w_eq N (A B : list T) bi br :
    alg_fits N br bi -> algorithms_matrix_multiply_w M N A B bi br = algorithms_matrix_multiply N A B bi br.
  Proof.
    intros Hfit. pose proof Hfit as HM. unfold alg_fits in HM. assert (N * N + 2 * N + 2 * br + 2 < M) by nia. clear HM.
    unfold algorithms_matrix_multiply_w, algorithms_matrix_multiply. rewrite wmul_small by lia.
    wstep; [done|]. destruct (br =? 0) eqn:E0; [done|]. apply Nat.eqb_neq in E0.
    pose proof (Nat.div_mod N br E0). pose proof (Nat.mod_upper_bound N br E0).
    assert (N / br <= N). { apply Nat.div_le_upper_bound; nia. }
    rewrite (wadd_small M (N / br)) by lia.
    set (rb := if N mod br =? 0 then N / br else N / br + 1).
    assert (rb <= N /\ rb * br <= N + br) as [? ?].
    { unfold rb. destruct (N mod br =? 0) eqn:E1; [split; lia|]. apply Nat.eqb_neq in E1. split; [|lia].
      destruct (decide (br = 1)) as [->|]; [rewrite Nat.mod_1_r in E1; lia|]. nia. }
    rewrite wmul_small by nia. unfold alg_dim_iterates_w, alg_dim_iterates.
    assert (bnd rb (replicate 2 0)) by (repeat constructor; lia).
    rewrite (iterates_w_eq _ rb 1) by (lia || assumption || (repeat constructor; lia)).
    apply ofres_bind_eq. intros cs Ecs. apply (iterates_bnd rb) in Ecs; [|assumption || (repeat constructor; lia)..].
    wstep; [|done]. apply parL_eq. intros cur Hc. rewrite Forall_forall in Ecs.
    apply (alg_task_w_eq _ _ _ _ _ _ rb); [lia|lia|done|by apply Ecs].
  Qed.

  (** ** looped *)
  Definition looped_fits (N br bi : nat) : Prop :=
    N * N * N < M /\ 2 * N * (N + 1) + 1 < M /\ N + br < M /\ N + bi < M.
  Lemma looped_w_eq N (A B : list T) br bi :
    looped_fits N br bi -> looped_matrix_multiply_w M N A B br bi = looped_matrix_multiply N A B br bi.
  Proof.
    intros (H3&H2&Hbr&Hbi). unfold looped_matrix_multiply_w, looped_matrix_multiply.
    rewrite (wmul_small M N N) by nia.
    match goal with |- looped_iterate_w _ _ _ _ ?f _ = looped_iterate _ _ _ ?g _ =>
      assert (forall p s, bnd (2 * N) p -> f p s = g p s) as Hcb; [|set (f1 := f) in *; set (g1 := g) in *] end.
    { intros p s Hp. apply ofres_bind_eq. intros x Ex. apply ofres_bind_eq. intros y Ey. apply ofres_bind_eq. intros k Ek.
      apply (lget_bnd (2 * N)) in Ex, Ey, Ek; [|done..]. assert (x * N <= 2 * N * N) by nia. assert (y * N <= 2 * N * N) by nia.
      repeat wstep. }
    cbn [looped_iterate_w looped_iterate length Nat.eqb negb].
    assert (bnd N [0; 0; 0]) by (repeat constructor; lia). assert (bnd N [N; N; N]) by (repeat constructor; lia).
    assert (Hcnt : forall c, looped_count 3 [0; 0; 0] [N; N; N] [br; br; bi] = Ok c ->
      c <= N * N * N /\ (0 < c -> 0 < br <= N /\ 0 < bi <= N)).
    { intros c. unfold looped_count. cbn [seq foldR lget lookup list_lookup rbind].
      destruct (br =? 0) eqn:E1; [done|]. cbn [rbind]. destruct (bi =? 0) eqn:E2; [done|]. cbn [rbind].
      apply Nat.eqb_neq in E1, E2. intros [= <-]. rewrite Nat.sub_0_r.
      assert (N / br <= N) by (apply Nat.div_le_upper_bound; nia).
      assert (N / bi <= N) by (apply Nat.div_le_upper_bound; nia).
      split.
      - rewrite Nat.add_0_r. apply Nat.mul_le_mono; [|done]. by apply Nat.mul_le_mono.
      - intros Hp. destruct (decide (br <= N)).
        + destruct (decide (bi <= N)); [lia|]. rewrite (Nat.div_small N bi) in Hp by lia. lia.
        + rewrite (Nat.div_small N br) in Hp by lia. lia. }
    rewrite (looped_count_w_eq _ N); [|lia|lia|done| |].
    2:{ intros d lo hi Hlo Hhi. destruct d as [|[|[|d]]]; cbn in Hlo, Hhi; try done; simplify_eq; lia. }
    2:{ intros c Hc. apply Hcnt in Hc. lia. }
    apply ofres_bind_eq. intros c Hc. apply Hcnt in Hc as [_ Hc].
    apply ofres_bind_eq. intros it ->%dim_index_iterator_ok.
    rewrite (iterates_w_eq _ N (Nat.max br bi)); [|lia|done..|repeat constructor; lia].
    apply ofres_bind_eq. intros cs Ecs. pose proof Ecs as Ecs'. apply (iterates_bnd N) in Ecs; [|done..].
    rewrite Forall_forall in Ecs. apply foldP_eq. intros cur s Hcur. specialize (Ecs cur Hcur).
    assert (0 < c) as Hpos. { destruct c; [|lia]. injection Ecs' as <-. by apply elem_of_nil in Hcur. }
    destruct (Hc Hpos) as [Hr Hi]. clear Hc.
    assert (bnd N [br; br; bi]) by (repeat constructor; lia).
    rewrite (add_block_w_eq _ N N) by (nia || assumption). apply ofres_bind_eq. intros rm Erm.
    pose proof (add_block_bnd _ _ _ _ _ _ Ecs H4 Erm) as Hrm. replace (N + N) with (2 * N) in Hrm by lia.
    pose proof (add_block_below _ _ _ _ _ H4 Erm) as Hbe.
    destruct (length cur =? length rm); [|done]. cbn [negb].
    assert (bnd (2 * N) cur) by (by apply (bnd_mono N); [lia|]).
    rewrite (looped_count_w_eq _ (2 * N)); [|nia|lia|done|done|].
    2:{ intros c' Hc'. apply (looped_count_le N) in Hc'.
        - destruct Hc' as [Hc' Hl]. cbn [length] in Hl. assert (N ^ length cur <= N ^ 3) by (apply Nat.pow_le_mono_r; lia).
          cbn [Nat.pow] in *. lia.
        - intros d lo hi Hlo Hhi. pose proof (add_block_span _ _ _ _ _ H4 Erm d lo hi Hlo Hhi). lia. }
    apply ofres_bind_eq. intros c' _. apply ofres_bind_eq. intros it ->%dim_index_iterator_ok.
    rewrite (iterates_w_eq _ (2 * N) 1); [|nia|done..|repeat constructor; lia].
    apply ofres_bind_eq. intros qs Eqs. apply (iterates_bnd (2 * N)) in Eqs; [|done..].
    rewrite Forall_forall in Eqs. apply foldP_eq. intros q s' Hq. apply Hcb. by apply Eqs.
  Qed.

  (** ** semi *)
  Definition semi_fits (N bi : nat) : Prop := (N + 4) * (N + bi) + N + bi + 6 < M.
  Lemma semi_copy_w_eq N dst (src : nat -> prog T T) :
    N * N + N + 2 < M -> semi_copy_w M N dst src = semi_copy N dst src.
  Proof.
    intros HM. unfold semi_copy_w, semi_copy. apply ofres_bind_eq. intros pol Hpol. injection Hpol as <-.
    unfold iterate_indices_w, iterate_indices. cbn [pconf].
    apply (iterate_conf_w_eq M 2 _ [1] N); cbn [nsum isum]; try lia; try (repeat constructor; lia).
    - intros d lo hi Hlo Hhi. destruct d as [|[|d]]; cbn in Hlo, Hhi; try done; simplify_eq; lia.
    - intros p Hp. rewrite Nat.add_0_r in Hp. apply ofres_bind_eq. intros x Ex. apply ofres_bind_eq. intros y Ey.
      apply lget_ok in Ex, Ey. apply (Forall_lookup_1 _ _ _ _ Hp) in Ex, Ey. cbn in Ex, Ey.
      assert (x * N + y < N * N) by (apply idx_lt; lia).
      assert (wadd M (wmul M x N) y = x * N + y) as -> by (wexp; lia). done.
  Qed.
  Lemma semi_kernel_w_eq N bi p : semi_fits N bi -> blw N p -> semi_kernel_w M N bi p = semi_kernel N bi p.
  Proof.
    intros HM Hp. unfold semi_fits in HM. unfold semi_kernel_w, semi_kernel.
    assert (N * N + N * bi + 4 * N + 4 * bi + N + bi + 6 < M) as HM' by lia. clear HM.
    apply ofres_bind_eq. intros x Ex. apply ofres_bind_eq. intros y Ey. apply ofres_bind_eq. intros k Ek.
    apply lget_ok in Ex, Ey, Ek. apply (Forall_lookup_1 _ _ _ _ Hp) in Ex, Ey, Ek. cbn in Ex, Ey, Ek.
    assert (forall a q r, a < N -> q < 4 -> r < N -> (a + q) * N + r < N * N + 3 * N) as Hb.
    { intros a q r Ha Hq Hr. replace (N * N + 3 * N) with ((N + 3) * N) by lia. apply idx_lt; lia. }
    wstep.
    - wstep. unfold semi_inner_w, semi_inner. destruct s as [[[[[[[? ?] ?] ?] ?] ?] ?] ?].
      pose proof (Hb x 0 k). pose proof (Hb x 1 k). pose proof (Hb x 2 k). pose proof (Hb x 3 k).
      pose proof (Hb y 0 k). pose proof (Hb y 1 k). repeat wstep.
    - destruct x0 as [[[[[[[? ?] ?] ?] ?] ?] ?] ?].
      pose proof (Hb x 0 y). pose proof (Hb x 1 y). pose proof (Hb x 2 y). pose proof (Hb x 3 y).
      repeat (wstep; [f_equal; wexp; lia|]). f_equal. wexp. lia.
  Qed.
  Lemma semi_w_eq N (A B : list T) br bi :
    semi_fits N bi -> semi_matrix_multiply_w M N A B br bi = semi_matrix_multiply N A B br bi.
  Proof.
    intros HM. pose proof HM as HM'. unfold semi_fits in HM'.
    assert (N * N + 4 * N + 4 * bi + N + bi + 6 < M) by lia. clear HM'.
    unfold semi_matrix_multiply_w, semi_matrix_multiply. rewrite !wmul_small by lia. rewrite !semi_copy_w_eq by lia.
    do 6 (wstep; [done|]). apply ofres_bind_eq. intros pol Hpol. injection Hpol as <-.
    apply ofres_bind_eq. intros pol Hpol. injection Hpol as <-. wstep; [|done].
    unfold iterate_indices_w, iterate_indices. cbn [pconf].
    apply (iterate_conf_w_eq M 3 _ [Nat.max 4 bi] N); cbn [nsum isum]; try lia; try (repeat constructor; lia).
    - intros d lo hi Hlo Hhi. destruct d as [|[|[|d]]]; cbn in Hlo, Hhi; try done; simplify_eq; lia.
    - intros p Hp. rewrite Nat.add_0_r in Hp. by apply semi_kernel_w_eq.
  Qed.
End Variants.
