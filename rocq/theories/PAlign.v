(** Proofs about the pointer-alignment helpers (MAlign.v). *)
From Verif Require Import Base MAlign.
Local Open Scope Z_scope.

Lemma is_pow2_pow k : 0 <= k -> is_pow2 (2 ^ k) = true.
Proof.
  intros Hk. unfold is_pow2. rewrite Z.log2_pow2 by done.
  rewrite Z.eqb_refl, andb_true_r. apply Z.ltb_lt. by apply Z.pow_pos_nonneg.
Qed.
Lemma is_pow2_inv a : is_pow2 a = true -> exists k, 0 <= k /\ a = 2 ^ k.
Proof.
  unfold is_pow2. intros [_ H%Z.eqb_eq]%andb_true_iff.
  exists (Z.log2 a). split; [apply Z.log2_nonneg|done].
Qed.

Lemma padding_spec a p : 0 < a ->
  0 <= (- p) mod a < a /\ (a | p + (- p) mod a).
Proof.
  intros Ha. split; [by apply Z.mod_pos_bound|].
  apply Z.mod_divide; [lia|].
  rewrite Z.add_mod_idemp_r by lia. rewrite Z.add_opp_diag_r. by apply Z.mod_0_l; lia.
Qed.

Lemma alloc_first env k sizeofT n :
  0 <= k -> 0 < sizeofT -> 0 < n -> sizeofT * n + 2 ^ k < 2 ^ 64 ->
  forall base, env (sizeofT * n + 2 ^ k) = Some base ->
  exists p s, alloc env sizeofT n (2 ^ k) fresh_allocator = Ok (p, s) /\
    (2 ^ k | p) /\ base <= p /\ p + sizeofT * n <= base + (sizeofT * n + 2 ^ k) /\
    a_p s = p /\ released s = Some (base, sizeofT * n + 2 ^ k).
Proof.
  intros Hk Hs Hn Hw base Hb.
  assert (0 < 2 ^ k) as Hp by by apply Z.pow_pos_nonneg.
  assert (0 < sizeofT * n) as Hsn by nia.
  assert (u64 (u64 (sizeofT * n) + 2 ^ k) = sizeofT * n + 2 ^ k) as E.
  { unfold u64. rewrite (Z.mod_small (sizeofT * n)) by lia. apply Z.mod_small. lia. }
  destruct (padding_spec (2 ^ k) base Hp) as [Hpad Hdiv].
  unfold alloc, fresh_allocator. cbn [a_data]. rewrite E, Hb.
  unfold std_align. rewrite is_pow2_pow by done. cbn [rbind].
  assert (sizeofT + (- base) mod 2 ^ k <=? sizeofT * n + 2 ^ k = true) as ->.
  { apply Z.leb_le. nia. }
  eexists _, _. split; [reflexivity|]. split; [exact Hdiv|].
  split; [lia|]. split; [lia|]. done.
Qed.

Lemma alloc_zero env k sizeofT base :
  0 <= k < 64 -> 0 < sizeofT -> env (2 ^ k) = Some base ->
  (2 ^ k < sizeofT + (- base) mod 2 ^ k ->
   alloc env sizeofT 0 (2 ^ k) fresh_allocator = Fail ETerminate) /\
  (sizeofT + (- base) mod 2 ^ k <= 2 ^ k ->
   exists p s, alloc env sizeofT 0 (2 ^ k) fresh_allocator = Ok (p, s) /\ (2 ^ k | p)).
Proof.
  intros Hk Hs Hb.
  assert (0 < 2 ^ k) as Hp by (apply Z.pow_pos_nonneg; lia).
  assert (2 ^ k < 2 ^ 64) as Hlt by (apply Z.pow_lt_mono_r; lia).
  assert (u64 (u64 (sizeofT * 0) + 2 ^ k) = 2 ^ k) as E.
  { unfold u64. rewrite Z.mul_0_r, Z.mod_0_l by lia. rewrite Z.add_0_l. apply Z.mod_small. lia. }
  unfold alloc, fresh_allocator. cbn [a_data]. rewrite E, Hb.
  unfold std_align. rewrite is_pow2_pow by lia. cbn [rbind]. split; intros H.
  - by rewrite (proj2 (Z.leb_gt _ _)).
  - rewrite (proj2 (Z.leb_le _ _)) by lia. eexists _, _. split; [reflexivity|].
    by apply padding_spec.
Qed.

Lemma alloc_second env sizeofT n alignment p s env' sizeofT' n' alignment' :
  alloc env sizeofT n alignment fresh_allocator = Ok (p, s) ->
  alloc env' sizeofT' n' alignment' s = Fail ETerminate.
Proof.
  unfold alloc at 1. cbn [fresh_allocator a_data].
  destruct (env _) as [b|]; [|done]. unfold std_align. destruct (is_pow2 _); [|done].
  cbn [rbind]. destruct (_ <=? _); [|done]. by intros [= <- <-].
Qed.

Lemma alloc_wrap env sizeofT n alignment p s :
  0 < sizeofT -> 0 <= n -> 0 <= alignment < 2 ^ 64 ->
  2 ^ 64 <= sizeofT * n + alignment ->
  alloc env sizeofT n alignment fresh_allocator = Ok (p, s) ->
  exists base size, released s = Some (base, size) /\ base + size < p + sizeofT * n.
Proof.
  intros Hs Hn Ha Hw. unfold alloc. cbn [fresh_allocator a_data].
  destruct (env _) as [b|] eqn:Eb; [|done]. unfold std_align.
  destruct (is_pow2 _) eqn:Hp; [|done]. cbn [rbind].
  destruct (_ <=? _) eqn:Hle; [|done]. intros [= <- <-].
  eexists _, _. split; [reflexivity|]. cbn.
  assert (0 < alignment) as Hpos.
  { unfold is_pow2 in Hp. apply andb_true_iff in Hp as [H%Z.ltb_lt _]. done. }
  pose proof (Z.mod_pos_bound (- b) alignment Hpos) as Hb.
  unfold u64 in *.
  set (t := sizeofT * n) in *. clearbody t.
  rewrite Z.add_mod_idemp_l by lia.
  enough ((t + alignment) mod 2 ^ 64 < t) by lia.
  assert ((t + alignment) mod 2 ^ 64 <= t + alignment - 2 ^ 64).
  { replace ((t + alignment) mod 2 ^ 64) with ((t + alignment - 2 ^ 64) mod 2 ^ 64).
    - apply Z.mod_le; lia.
    - rewrite <- (Z_mod_plus_full (t + alignment - 2 ^ 64) 1 (2 ^ 64)). f_equal. lia. }
  lia.
Qed.

Lemma alloc_bad_alignment env sizeofT n alignment base :
  is_pow2 alignment = false ->
  env (u64 (u64 (sizeofT * n) + alignment)) = Some base ->
  alloc env sizeofT n alignment fresh_allocator = Fail EMisaligned.
Proof.
  intros Hp Hb. unfold alloc. cbn [fresh_allocator a_data]. rewrite Hb.
  unfold std_align. by rewrite Hp.
Qed.

(** * bench_align *)

Lemma land_high x k : 0 <= k <= 64 -> 0 <= x < 2 ^ 64 ->
  Z.land x (u64 (- 2 ^ k)) = x - x mod 2 ^ k.
Proof.
  intros Hk Hx.
  assert (0 < 2 ^ k) by (apply Z.pow_pos_nonneg; lia).
  assert (x - x mod 2 ^ k = Z.ldiff x (Z.ones k)) as ->.
  { rewrite Z.ldiff_ones_r by lia. rewrite Z.shiftl_mul_pow2, Z.shiftr_div_pow2 by lia.
    pose proof (Z.div_mod x (2 ^ k)). lia. }
  unfold u64. apply Z.bits_inj'. intros i Hi.
  rewrite Z.land_spec, Z.ldiff_spec.
  rewrite Z.testbit_ones_nonneg by lia.
  destruct (Z.ltb_spec i 64).
  - rewrite Z.mod_pow2_bits_low by lia. f_equal.
    replace (- 2 ^ k) with (Z.lnot (Z.ones k)) by (rewrite Z.ones_equiv; unfold Z.lnot; lia).
    rewrite Z.lnot_spec by lia. by rewrite Z.testbit_ones_nonneg by lia.
  - assert (Z.testbit x i = false) as ->; [|done].
    destruct (decide (x = 0)) as [->|]; [apply Z.bits_0|].
    apply Z.bits_above_log2; [lia|].
    apply Z.log2_lt_pow2; [lia|]. apply Z.lt_le_trans with (2 ^ 64); [lia|].
    apply Z.pow_le_mono_r; lia.
Qed.

(** The general behaviour of [bench_align] when nothing wraps: round up, and
    null exactly when [space] is smaller than [size] plus the padding. *)
Lemma bench_align_spec k size ptr space :
  0 <= k < 64 -> 0 <= ptr -> ptr + 2 ^ k <= 2 ^ 64 -> 0 <= size -> size + 2 ^ k <= 2 ^ 64 ->
  bench_align (2 ^ k) size ptr space =
    if space <? size + (- ptr) mod 2 ^ k then None else Some (ptr + (- ptr) mod 2 ^ k).
Proof.
  intros Hk Hptr Hw Hs Hsw.
  assert (0 < 2 ^ k) as Hp by (apply Z.pow_pos_nonneg; lia).
  destruct (padding_spec (2 ^ k) ptr Hp) as [Hpad Hdiv].
  unfold bench_align.
  assert (u64 (ptr + 2 ^ k - 1) = ptr + 2 ^ k - 1) as -> by (unfold u64; apply Z.mod_small; lia).
  rewrite land_high by lia.
  assert (ptr + 2 ^ k - 1 - (ptr + 2 ^ k - 1) mod 2 ^ k = ptr + (- ptr) mod 2 ^ k) as ->.
  { destruct Hdiv as [q Hq].
    set (d := (- ptr) mod 2 ^ k) in *. clearbody d.
    assert ((ptr + 2 ^ k - 1) mod 2 ^ k = 2 ^ k - 1 - d) as ->; [|lia].
    symmetry. apply (Z.mod_unique _ _ q); [left; lia|]. lia. }
  assert (u64 (ptr + (- ptr) mod 2 ^ k - ptr) = (- ptr) mod 2 ^ k) as ->.
  { unfold u64. rewrite Z.mod_small; lia. }
  assert (u64 (size + (- ptr) mod 2 ^ k) = size + (- ptr) mod 2 ^ k) as ->.
  { unfold u64. rewrite Z.mod_small; lia. }
  done.
Qed.

Lemma bench_buffer_spec n base :
  0 <= n -> 0 <= base -> base + 8 * (n * n + 8) <= 2 ^ 64 ->
  bench_buffer n base =
    if n * n <? (- base) mod 64 then None else Some (base + (- base) mod 64).
Proof.
  intros Hn Hb Hw. unfold bench_buffer. change 64 with (2 ^ 6) at 1.
  rewrite bench_align_spec; [| lia | lia | | lia | ].
  - change (2 ^ 6) with 64.
    destruct (Z.ltb_spec (n * n + 8) (8 + (- base) mod 64));
      destruct (Z.ltb_spec (n * n) ((- base) mod 64)); try done; lia.
  - change (2 ^ 6) with 64. nia.
  - change (2 ^ 6) with 64. lia.
Qed.

Lemma bench_buffer_fits n base p :
  0 <= n -> 0 <= base -> base + 8 * (n * n + 8) <= 2 ^ 64 ->
  bench_buffer n base = Some p ->
  (64 | p) /\ base <= p /\ p + 8 * (n * n) <= base + 8 * (n * n + 8).
Proof.
  intros Hn Hb Hw. rewrite bench_buffer_spec by done.
  destruct (padding_spec 64 base ltac:(lia)) as [Hpad Hdiv].
  destruct (_ <? _); [done|]. intros [= <-].
  split; [exact Hdiv|]. lia.
Qed.

Lemma bench_buffer_large n base :
  8 <= n -> 0 <= base -> (8 | base) -> base + 8 * (n * n + 8) <= 2 ^ 64 ->
  exists p, bench_buffer n base = Some p.
Proof.
  intros Hn Hb [q ->] Hw. rewrite bench_buffer_spec by lia.
  assert (n * n <? (- (q * 8)) mod 64 = false) as ->; [|by eexists].
  apply Z.ltb_ge. destruct (padding_spec 64 (q * 8) ltac:(lia)) as [? _]. nia.
Qed.

Lemma bench_buffer_small n base :
  0 <= n <= 7 -> 0 <= base -> base mod 64 = 8 -> base + 8 * (n * n + 8) <= 2 ^ 64 ->
  bench_buffer n base = None.
Proof.
  intros Hn Hb Hm Hw. rewrite bench_buffer_spec by lia.
  assert ((- base) mod 64 = 56) as ->.
  { rewrite Z.mod_opp_l_nz by lia. lia. }
  assert (n * n <? 56 = true) as ->; [apply Z.ltb_lt; nia|done].
Qed.
