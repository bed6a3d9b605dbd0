(** Word arithmetic without wrap-around: kernel_tiled, combined and kernel_test. *)
From Verif Require Import LoopFacts Tools MWord3 SpecTiled PTiled PTiled2 PTiled3 PWord PWord2.

Lemma parW2_eq M {T} hx sx hy sy (f g : nat * nat -> prog T unit) :
  0 < sx -> 0 < sy -> hx + sx <= M -> hy + sy <= M ->
  (forall x y, x < hx -> y < hy -> f (x, y) = g (x, y)) ->
  parW2 M hx sx hy sy f = parL (rng 0 hx sx ≫= fun x => rng 0 hy sy ≫= fun y => [(x, y)]) g.
Proof.
  intros Hx Hy H1 H2 E. unfold parW2. rewrite !wrng_eq by lia. cbn [fst snd andb].
  apply parL_eq. intros [x y] Hp. apply elem_of_list_bind in Hp as (x'&Hp&Hx').
  apply elem_of_list_bind in Hp as (y'&Hp&Hy'). apply elem_of_list_singleton in Hp. injection Hp as -> ->.
  apply rng_bounds in Hx', Hy'. apply E; lia.
Qed.
Lemma base_le a b lk nx lx U V W :
  lk * b <= U -> nx * a <= V -> lx * a <= W -> a * b * (lk * nx + lx) <= U * V + b * W.
Proof.
  intros H1 H2 H3. replace (a * b * (lk * nx + lx)) with ((lk * b) * (nx * a) + b * (lx * a)) by lia.
  apply Nat.add_le_mono; [by apply Nat.mul_le_mono|by apply Nat.mul_le_mono_l].
Qed.
Lemma div_mul_le n L : n / L * L <= n.
Proof. destruct (decide (L = 0)) as [->|]; [lia|]. rewrite Nat.mul_comm. by apply Nat.mul_div_le. Qed.

Lemma div_le n L : n / L <= n.
  Proof. destruct (decide (L = 0)) as [->|]; [apply Nat.le_0_l|]. apply Nat.div_le_upper_bound; [done|]. nia. Qed.
Lemma lt_div_mul i n L : i < n / L -> i * L + L <= n.
  Proof. intros Hi. pose proof (div_mul_le n L). nia. Qed.

Lemma cdiv_le n L : 0 < L -> cdiv n L <= n.
  Proof. intros HL. unfold cdiv. apply Nat.lt_succ_r, Nat.div_lt_upper_bound; [lia|]. nia. Qed.
Lemma block_count_le n L c : block_count n L = Ok c -> c <= n.
  Proof.
    unfold block_count. destruct (L =? 0) eqn:E; [done|]. apply Nat.eqb_neq in E. intros [= <-]. apply cdiv_le. lia.
  Qed.
Lemma pad_le N L : N + padding N L <= N + L.
  Proof. unfold padding. destruct (_ =? _); lia. Qed.


Section Blocks.
  Context (M : nat) {T : Type} `{NumOps T}.
  Context (b : blocks) (S : nat) (HM : 16 * ((S + 8) * (S + 8)) < M).
  Context (H3 : L3_X b <= S /\ L3_Y b <= S /\ L3_K b <= S) (H2 : L2_X b <= S /\ L2_Y b <= S /\ L2_K b <= S)
    (H1 : L1_X b <= S /\ L1_Y b <= S /\ L1_K b <= S).
  Context (P3 : 0 < L3_X b /\ 0 < L3_Y b /\ 0 < L3_K b).

  Lemma HM' : 16 * (S * S) + 256 * S + 1024 <= M.
  Proof. clear -HM. lia. Qed.
  Ltac mm a c :=
    let HH := fresh in assert (HH : a * c <= S * S) by (apply Nat.mul_le_mono; lia); revert HH.

  Lemma pad_A_w_eq N X K (A : list T) : N <= X -> N <= K -> X <= S -> K <= S -> pad_A_w M N X K A = pad_A N X K A.
  Proof.
    intros. pose proof HM'. unfold pad_A_w, pad_A. assert (X * K <= S * S) by (apply Nat.mul_le_mono; lia).
    rewrite wmul_small by lia. wstep. wstep.
    assert (i * N <= S * S) by (apply Nat.mul_le_mono; lia). assert (i * K <= S * S) by (apply Nat.mul_le_mono; lia).
    wstep; wstep.
  Qed.
  Lemma pad_B_w_eq N Y K (B : list T) : N <= Y -> N <= K -> Y <= S -> K <= S -> pad_B_w M N Y K B = pad_B N Y K B.
  Proof.
    intros. pose proof HM'. unfold pad_B_w, pad_B. assert (K * Y <= S * S) by (apply Nat.mul_le_mono; lia).
    rewrite wmul_small by lia. wstep. wstep.
    assert (i0 * N <= S * S) by (apply Nat.mul_le_mono; lia). assert (i0 * Y <= S * S) by (apply Nat.mul_le_mono; lia).
    wstep; wstep.
  Qed.

  Lemma tile_A_w_eq X K (A : list T) : X <= S -> K <= S -> tile_A_w M b X K A = tile_A b X K A.
  Proof.
    intros. pose proof HM'. unfold tile_A_w, tile_A. assert (K * X <= S * S) by (apply Nat.mul_le_mono; lia).
    pose proof (div_le X (L1_X b)). pose proof (div_le K (L1_K b)).
    rewrite (wmul_small M K X) by lia. wstep. wstep.
    pose proof (lt_div_mul i X (L1_X b) ltac:(lia)). pose proof (lt_div_mul i0 K (L1_K b) ltac:(lia)).
    pose proof (base_le (L1_X b) (L1_K b) i0 (X / L1_X b) i S S S ltac:(lia)
      ltac:(pose proof (div_mul_le X (L1_X b)); lia) ltac:(lia)) as Hb.
    assert (L1_K b * S <= S * S) by (apply Nat.mul_le_mono_r; lia).
    assert (wmul M (wmul M (L1_X b) (L1_K b)) (wadd M (wmul M i0 (X / L1_X b)) i) =
      L1_X b * L1_K b * (i0 * (X / L1_X b) + i)) as -> by (wexp; lia).
    cbv zeta. set (base := L1_X b * L1_K b * _) in *. clearbody base. wstep. wstep.
    assert ((i * L1_X b + i1) * K <= S * S) by (apply Nat.mul_le_mono; lia).
    assert (i2 * L1_X b <= S * S) by (apply Nat.mul_le_mono; lia).
    wstep; wstep.
  Qed.
  Lemma tile_B_w_eq Y K (B : list T) : Y <= S -> K <= S -> tile_B_w M b Y K B = tile_B b Y K B.
  Proof.
    intros. pose proof HM'. unfold tile_B_w, tile_B. assert (K * Y <= S * S) by (apply Nat.mul_le_mono; lia).
    pose proof (div_le Y (L1_Y b)). pose proof (div_le K (L1_K b)).
    rewrite (wmul_small M K Y) by lia. wstep. wstep.
    pose proof (lt_div_mul i Y (L1_Y b) ltac:(lia)). pose proof (lt_div_mul i0 K (L1_K b) ltac:(lia)).
    pose proof (base_le (L1_Y b) (L1_K b) i0 (Y / L1_Y b) i S S S ltac:(lia)
      ltac:(pose proof (div_mul_le Y (L1_Y b)); lia) ltac:(lia)) as Hb.
    assert (L1_K b * S <= S * S) by (apply Nat.mul_le_mono_r; lia).
    assert (wmul M (wmul M (L1_Y b) (L1_K b)) (wadd M (wmul M i0 (Y / L1_Y b)) i) =
      L1_Y b * L1_K b * (i0 * (Y / L1_Y b) + i)) as -> by (wexp; lia).
    cbv zeta. set (base := L1_Y b * L1_K b * _) in *. clearbody base. wstep. wstep.
    assert ((i0 * L1_K b + i2) * Y <= S * S) by (apply Nat.mul_le_mono; lia).
    assert (i2 * L1_Y b <= S * S) by (apply Nat.mul_le_mono; lia).
    wstep; wstep.
  Qed.
  Lemma transpose_untiled_w_eq X K (A : list T) : X <= S -> K <= S -> transpose_untiled_w M X K A = transpose_untiled X K A.
  Proof.
    intros. pose proof HM'. unfold transpose_untiled_w, transpose_untiled. assert (K * X <= S * S) by (apply Nat.mul_le_mono; lia).
    rewrite wmul_small by lia. wstep. wstep.
    assert (i0 * K <= S * S) by (apply Nat.mul_le_mono; lia). assert (i * X <= S * S) by (apply Nat.mul_le_mono; lia).
    wstep; wstep.
  Qed.

  Lemma reg_block_w_eq (At Bp : list T) Ab Bb Cb x y :
    Ab <= 6 * (S * S) -> Bb <= 6 * (S * S) -> Cb <= 6 * (S * S) -> x < L1_X b -> y < L1_Y b ->
    reg_block_w M b At Bp Ab Bb Cb x y = reg_block b At Bp Ab Bb Cb x y.
  Proof.
    intros HA HB HC Hx Hy. pose proof HM'. unfold reg_block_w, reg_block.
    wstep.
    - wstep. unfold reg_inner_w, reg_inner. destruct s as [[[[[[[[[? ?] ?] ?] ?] ?] ?] ?] ?] ?].
      assert (i * L1_Y b <= S * S) by (apply Nat.mul_le_mono; lia).
      assert (i * L1_X b <= S * S) by (apply Nat.mul_le_mono; lia).
      repeat (wstep; [f_equal; wexp; lia|]). wstep.
    - destruct x0 as [[[[[[[[[? ?] ?] ?] ?] ?] ?] ?] ?] ?].
      assert (forall q, q <= 4 -> (x + q) * L1_Y b <= S * S + 4 * S) as HQ.
      { intros q Hq. replace (S * S + 4 * S) with ((S + 4) * S) by lia. apply Nat.mul_le_mono; lia. }
      pose proof (HQ 0). pose proof (HQ 1). pose proof (HQ 2). pose proof (HQ 3). pose proof (HQ 4).
      repeat (wstep; [f_equal; wexp; lia|]). f_equal; wexp; lia.
  Qed.
  Lemma l1_kernel_w_eq X Y (At Bp : list T) lx ly lk :
    X <= S -> Y <= S -> lx <= 3 * S -> ly <= 3 * S -> lk <= 3 * S ->
    l1_kernel_w M b X Y At Bp lx ly lk = l1_kernel b X Y At Bp lx ly lk.
  Proof.
    intros HX HY Hx Hy Hk. pose proof HM'. unfold l1_kernel_w, l1_kernel.
    pose proof (div_mul_le X (L1_X b)). pose proof (div_mul_le Y (L1_Y b)).
    pose proof (div_mul_le lx (L1_X b)). pose proof (div_mul_le ly (L1_Y b)). pose proof (div_mul_le lk (L1_K b)).
    assert (L1_K b * (3 * S) <= S * (3 * S)) by (apply Nat.mul_le_mono_r; lia).
    assert (L1_X b * (3 * S) <= S * (3 * S)) by (apply Nat.mul_le_mono_r; lia).
    pose proof (base_le (L1_Y b) (L1_X b) (lx / L1_X b) (Y / L1_Y b) (ly / L1_Y b) (3 * S) S (3 * S) ltac:(lia) ltac:(lia) ltac:(lia)) as HC.
    rewrite (Nat.mul_comm (L1_Y b) (L1_X b)) in HC.
    pose proof (base_le (L1_X b) (L1_K b) (lk / L1_K b) (X / L1_X b) (lx / L1_X b) (3 * S) S (3 * S) ltac:(lia) ltac:(lia) ltac:(lia)) as HA.
    pose proof (base_le (L1_Y b) (L1_K b) (lk / L1_K b) (Y / L1_Y b) (ly / L1_Y b) (3 * S) S (3 * S) ltac:(lia) ltac:(lia) ltac:(lia)) as HB.
    assert (wmul M (wmul M (L1_X b) (L1_Y b)) (wadd M (wmul M (lx / L1_X b) (Y / L1_Y b)) (ly / L1_Y b)) =
      L1_X b * L1_Y b * (lx / L1_X b * (Y / L1_Y b) + ly / L1_Y b)) as -> by (wexp; lia).
    assert (wmul M (wmul M (L1_X b) (L1_K b)) (wadd M (wmul M (lk / L1_K b) (X / L1_X b)) (lx / L1_X b)) =
      L1_X b * L1_K b * (lk / L1_K b * (X / L1_X b) + lx / L1_X b)) as -> by (wexp; lia).
    assert (wmul M (wmul M (L1_Y b) (L1_K b)) (wadd M (wmul M (lk / L1_K b) (Y / L1_Y b)) (ly / L1_Y b)) =
      L1_Y b * L1_K b * (lk / L1_K b * (Y / L1_Y b) + ly / L1_Y b)) as -> by (wexp; lia).
    cbv zeta. apply forPW_eq; [lia..|]. intros x Hx'. apply forPW_eq; [lia..|]. intros y Hy'.
    apply reg_block_w_eq; lia.
  Qed.

  Lemma untile_C_w_eq N X Y : N <= S -> X <= S -> Y <= S -> untile_C_w M b N X Y = untile_C (T := T) b N X Y.
  Proof.
    intros. pose proof HM'. unfold untile_C_w, untile_C. assert (N * N <= S * S) by (apply Nat.mul_le_mono; lia).
    pose proof (div_le X (L1_X b)). pose proof (div_le Y (L1_Y b)).
    rewrite (wmul_small M N N) by lia. wstep. wstep.
    pose proof (lt_div_mul i X (L1_X b) ltac:(lia)). pose proof (lt_div_mul i0 Y (L1_Y b) ltac:(lia)).
    pose proof (base_le (L1_Y b) (L1_X b) i (Y / L1_Y b) i0 S S S ltac:(lia)
      ltac:(pose proof (div_mul_le Y (L1_Y b)); lia) ltac:(lia)) as Hb.
    rewrite (Nat.mul_comm (L1_Y b) (L1_X b)) in Hb.
    assert (L1_X b * S <= S * S) by (apply Nat.mul_le_mono_r; lia).
    assert (wmul M (wmul M (L1_X b) (L1_Y b)) (wadd M (wmul M i (Y / L1_Y b)) i0) =
      L1_X b * L1_Y b * (i * (Y / L1_Y b) + i0)) as -> by (wexp; lia).
    cbv zeta. set (base := L1_X b * L1_Y b * _) in *. clearbody base. wstep. wstep.
    assert (wadd M (wmul M i (L1_X b)) i1 = i * L1_X b + i1) as -> by (wexp; lia).
    assert (wadd M (wmul M i0 (L1_Y b)) i2 = i0 * L1_Y b + i2) as -> by (wexp; lia).
    destruct ((_ <? N) && _) eqn:E; [|done]. apply andb_prop in E as [E1%Nat.ltb_lt E2%Nat.ltb_lt].
    assert ((i * L1_X b + i1) * N <= S * S) by (apply Nat.mul_le_mono; lia).
    assert (i1 * L1_Y b <= S * S) by (apply Nat.mul_le_mono; lia).
    wstep; wstep.
  Qed.

  Lemma task_w_eq X Y K (At Bp : list T) l3x l3y :
    X <= S -> Y <= S -> K <= S -> l3x < X -> l3y < Y ->
    kernel_tiled_task_w M b X Y K At Bp l3x l3y = kernel_tiled_task b X Y K At Bp l3x l3y.
  Proof.
    intros HX HY HK Hx Hy. pose proof HM'. unfold kernel_tiled_task_w, kernel_tiled_task.
    wstep. rewrite (wadd_small M l3x), (wadd_small M l3y), (wadd_small M i) by lia.
    wstep. wstep. wstep. rewrite (wadd_small M i0), (wadd_small M i1), (wadd_small M i2) by lia.
    wstep. wstep. wstep. apply l1_kernel_w_eq; lia.
  Qed.
  Lemma kernel_tiled_w_eq N (A B : list T) tr reps :
    N + L3_X b <= S -> N + L3_Y b <= S -> N + L3_K b <= S -> reps < M ->
    kernel_tiled_matrix_multiply_w M b N A B tr reps = kernel_tiled_matrix_multiply b N A B tr reps.
  Proof.
    intros HX HY HK Hr. pose proof HM'. unfold kernel_tiled_matrix_multiply_w, kernel_tiled_matrix_multiply.
    destruct (negb _); [done|].
    pose proof (pad_le N (L3_X b)). pose proof (pad_le N (L3_Y b)). pose proof (pad_le N (L3_K b)).
    rewrite !wadd_small by lia. cbv zeta.
    assert (N <= N + padding N (L3_X b)) by lia. assert (N <= N + padding N (L3_Y b)) by lia.
    assert (N <= N + padding N (L3_K b)) by lia.
    set (X := N + padding N (L3_X b)) in *. set (Y := N + padding N (L3_Y b)) in *. set (K := N + padding N (L3_K b)) in *.
    clearbody X Y K. assert (X * Y <= S * S) by (apply Nat.mul_le_mono; lia).
    rewrite (wmul_small M X Y) by lia.
    wstep; [apply pad_A_w_eq; lia|]. wstep; [apply pad_B_w_eq; lia|]. wstep; [done|].
    wstep; [apply tile_A_w_eq; lia|]. wstep; [apply tile_B_w_eq; lia|].
    wstep; [|apply untile_C_w_eq; lia].
    wstep. wstep; [wstep; done|]. apply parW2_eq; [lia..|]. intros x' y' Hx' Hy'. apply task_w_eq; cbn [fst snd]; lia.
  Qed.

  (** ** combined *)
  Lemma cconf_fit X Y K :
    L3_X b * L3_Y b * L3_K b < M -> X <= S -> Y <= S -> K <= S ->
    counts_fit M 3 (cconf b) [0; 0; 0] [X; Y; K].
  Proof.
    intros Hc HX HY HK. pose proof HM'. unfold cconf. cbn [counts_fit]. split; [|intros cur mx' E; split; [|done]].
    - intros which c. unfold index_count. cbn [seq foldR lget lookup list_lookup rbind].
      rewrite !Nat.sub_0_r.
      destruct (block_count X _) as [cx|] eqn:E1; [|done]. destruct (block_count Y _) as [cy|] eqn:E2; [|done].
      destruct (block_count K _) as [ck|] eqn:E3; [|done]. cbn [rbind]. intros [= <-].
      apply block_count_le in E1, E2, E3. assert (cx * cy <= S * S) by (apply Nat.mul_le_mono; lia).
      destruct which; rewrite ?bt, ?bf, ?bt', ?bf', ?Nat.mul_1_l; lia.
    - unfold add_block in E. cbn [seq foldR lget lookup list_lookup rbind] in E.
      destruct cur as [|x [|y [|k cur]]]; try done. cbn in E. injection E as <-.
      intros which c. unfold index_count. cbn [seq foldR lget lookup list_lookup rbind].
      replace (x + L3_X b - x) with (L3_X b) by lia. replace (y + L3_Y b - y) with (L3_Y b) by lia.
      replace (k + L3_K b - k) with (L3_K b) by lia.
      destruct (block_count (L3_X b) _) as [cx|] eqn:E1; [|done]. destruct (block_count (L3_Y b) _) as [cy|] eqn:E2; [|done].
      destruct (block_count (L3_K b) _) as [ck|] eqn:E3; [|done]. cbn [rbind]. intros [= <-].
      apply block_count_le in E1, E2, E3.
      assert (cx * cy * ck <= L3_X b * L3_Y b * L3_K b) by (repeat apply Nat.mul_le_mono; lia).
      destruct which; rewrite ?bt, ?bf, ?bt', ?bf', ?Nat.mul_1_l; lia.
  Qed.
  Lemma combined_w_eq N (A B : list T) reps :
    L3_X b * L3_Y b * L3_K b < M ->
    N + L3_X b <= S -> N + L3_Y b <= S -> N + L3_K b <= S -> reps < M ->
    combined_matrix_multiply_w M b N A B reps = combined_matrix_multiply b N A B reps.
  Proof.
    intros Hc HX HY HK Hr. pose proof HM'. unfold combined_matrix_multiply_w, combined_matrix_multiply.
    destruct (negb _); [done|]. f_equal.
    pose proof (pad_le N (L3_X b)). pose proof (pad_le N (L3_Y b)). pose proof (pad_le N (L3_K b)).
    rewrite !wadd_small by lia. cbv zeta.
    assert (N <= N + padding N (L3_X b)) by lia. assert (N <= N + padding N (L3_Y b)) by lia.
    assert (N <= N + padding N (L3_K b)) by lia.
    set (X := N + padding N (L3_X b)) in *. set (Y := N + padding N (L3_Y b)) in *. set (K := N + padding N (L3_K b)) in *.
    clearbody X Y K. assert (X * Y <= S * S) by (apply Nat.mul_le_mono; lia).
    rewrite (wmul_small M X Y) by lia.
    wstep; [apply pad_A_w_eq; lia|]. wstep; [apply pad_B_w_eq; lia|]. wstep; [done|].
    wstep; [apply transpose_untiled_w_eq; lia|].
    wstep; [apply tile_A_w_eq; lia|]. wstep; [apply tile_B_w_eq; lia|].
    wstep; [|apply untile_C_w_eq; lia].
    wstep. apply ofres_bind_eq. intros pol Hpol. rewrite policy_eq in Hpol. injection Hpol as <-.
    apply pbind_eq; [done|intros _]. unfold iterate_indices_w, iterate_indices. cbn [pconf].
    apply (iterate_conf_w_eq M 3 _ [S; S; S] S); cbn [nsum isum]; try lia.
    - unfold cconf. cbn. repeat split; repeat constructor; lia.
    - repeat constructor; lia.
    - repeat constructor; lia.
    - intros d lo hi Hlo Hhi. destruct d as [|[|[|d]]]; cbn in Hlo, Hhi; try done; simplify_eq; lia.
    - apply cconf_fit; lia.
    - intros p Hp. unfold combined_callback_w, combined_callback.
      apply ofres_bind_eq. intros lx Ex. apply ofres_bind_eq. intros ly Ey. apply ofres_bind_eq. intros lk Ek.
      apply lget_ok in Ex, Ey, Ek. apply (Forall_lookup_1 _ _ _ _ Hp) in Ex, Ey, Ek. cbn in Ex, Ey, Ek.
      wstep; [apply l1_kernel_w_eq; lia|done].
  Qed.

  (** ** kernel_test *)
  Section KTest.
    Context (P : nat).
    Lemma kt_pad_w_eq N (V : list T) : N + P <= S -> kt_pad_w M P N V = kt_pad P N V.
    Proof.
      intros. pose proof HM'. unfold kt_pad_w, kt_pad. assert ((N + P) * (N + P) <= S * S) by (apply Nat.mul_le_mono; lia).
      rewrite !(wadd_small M N) by lia. rewrite (wmul_small M (N + P)) by lia. wstep. wstep.
      assert (i * N <= S * S) by (apply Nat.mul_le_mono; lia). assert (i * (N + P) <= S * S) by (apply Nat.mul_le_mono; lia).
      wstep; wstep.
    Qed.
    Lemma kt_trans_w_eq N (A : list T) : N + P <= S -> kt_trans_w M P N A = kt_trans P N A.
    Proof.
      intros. pose proof HM'. unfold kt_trans_w, kt_trans. assert ((N + P) * (N + P) <= S * S) by (apply Nat.mul_le_mono; lia).
      rewrite !(wadd_small M N) by lia. rewrite (wmul_small M (N + P)) by lia. wstep. wstep.
      assert (i0 * N <= S * S) by (apply Nat.mul_le_mono; lia). assert (i * (N + P) <= S * S) by (apply Nat.mul_le_mono; lia).
      wstep; wstep.
    Qed.
    Lemma kt_block_w_eq W (At Bp : list T) lx lk x y :
      W <= S -> lx <= 3 * S -> lk <= 3 * S -> x <= 4 * S -> y <= 4 * S ->
      kt_block_w M b W At Bp lx lk x y = kt_block b W At Bp lx lk x y.
    Proof.
      intros HW Hlx Hlk Hx Hy. pose proof HM'. unfold kt_block_w, kt_block.
      assert (forall k, k <= 4 * S + 4 -> k * W <= 4 * (S * S) + 4 * S) as HQ.
      { intros k Hk. replace (4 * (S * S) + 4 * S) with ((4 * S + 4) * S) by lia. apply Nat.mul_le_mono; lia. }
      pose proof (HQ lk).
      wstep; [f_equal; wexp; lia|]. wstep; [f_equal; wexp; lia|].
      rewrite (wadd_small M lk) by lia. rewrite (wadd_small M lx) by lia. wstep.
      - wstep. unfold kt_inner_w, kt_inner. destruct s as [[? ?] [[[[[[[[[? ?] ?] ?] ?] ?] ?] ?] ?] ?]].
        pose proof (HQ i). pose proof (HQ (i + 1)). repeat (wstep; [f_equal; wexp; lia|]). wstep.
      - destruct x2 as [[? ?] [[[[[[[[[? ?] ?] ?] ?] ?] ?] ?] ?] ?]].
        pose proof (HQ (x + 0)). pose proof (HQ (x + 1)). pose proof (HQ (x + 2)). pose proof (HQ (x + 3)). pose proof (HQ (x + 4)).
        assert (forall q r, q <= 4 -> r <= 4 -> wadd M (wmul M (wadd M x q) W) (wadd M y r) = (x + q) * W + (y + r)) as HI.
        { intros q r Hq Hr. pose proof (HQ (x + q)). wexp. lia. }
        assert (forall q, q <= 4 -> wadd M (wmul M (wadd M x q) W) y = (x + q) * W + y) as HI0.
        { intros q Hq. pose proof (HQ (x + q)). wexp. lia. }
        rewrite !HI, !HI0 by lia. rewrite !wadd_small by lia. done.
    Qed.
    Lemma kt_task_w_eq N (At Bp : list T) l3x l3y :
      N + P <= S -> l3x < N -> l3y < N ->
      kt_task_w M b P N At Bp l3x l3y = kt_task b P N At Bp l3x l3y.
    Proof.
      intros HN Hx Hy. pose proof HM'. unfold kt_task_w, kt_task.
      wstep. rewrite (wadd_small M l3x), (wadd_small M l3y), (wadd_small M i) by lia.
      wstep. wstep. wstep. rewrite (wadd_small M i0), (wadd_small M i1), (wadd_small M i2) by lia.
      wstep. wstep. wstep. unfold kt_l1_w, kt_l1. rewrite (wadd_small M i3), (wadd_small M i4), (wadd_small M N) by lia.
      wstep. wstep. apply kt_block_w_eq; lia.
    Qed.
    Lemma kernel_test_w_eq N (A B : list T) tr reps :
      N + P <= S -> reps < M ->
      kernel_test_matrix_multiply_w M b P N A B tr reps = kernel_test_matrix_multiply b P N A B tr reps.
    Proof.
      intros HN Hr. pose proof HM'. unfold kernel_test_matrix_multiply_w, kernel_test_matrix_multiply.
      assert ((N + P) * (N + P) <= S * S) by (apply Nat.mul_le_mono; lia).
      rewrite !(wadd_small M N) by lia. rewrite !(wmul_small M (N + P)) by lia.
      wstep; [done|]. wstep; [apply kt_pad_w_eq; lia|]. wstep; [apply kt_trans_w_eq; lia|]. wstep; [apply kt_pad_w_eq; lia|].
      wstep.
      - wstep. wstep; [wstep; done|]. apply parW2_eq; [lia..|]. intros x' y' Hx' Hy'. apply kt_task_w_eq; cbn [fst snd]; lia.
      - unfold kt_copy_back_w, kt_copy_back. assert (N * N <= S * S) by (apply Nat.mul_le_mono; lia).
        rewrite !(wadd_small M N) by lia. rewrite (wmul_small M N) by lia. wstep. wstep.
        assert (i * N <= S * S) by (apply Nat.mul_le_mono; lia). assert (i * (N + P) <= S * S) by (apply Nat.mul_le_mono; lia).
        wstep; wstep.
    Qed.
  End KTest.
End Blocks.
