(** The benchmark in binary64: sums of integers are exact. *)
From Coq Require Import ZArith Reals Psatz String.
From Flocq Require Import Core IEEE754.Binary IEEE754.Bits.
From Verif Require Import Base Num MCeil PCeil MDouble PDouble SpecBench Tools PUtil MBench PBench.
Local Open Scope Z_scope.

#[local] Instance prec53b : Prec_gt_0 53 := eq_refl.
#[local] Instance fexp64_validb : Valid_exp fexp64.
Proof. apply (FLT_exp_valid (-1074) 53). Qed.
#[local] Instance rne_validb : Valid_rnd (BinarySingleNaN.round_mode rne).
Proof. apply valid_rnd_N. Qed.

Lemma double_of_sign n : 0 <= n < 2 ^ 53 -> neg64 (double_of n) = false.
Proof.
  intros Hn. pose proof (binary_normalize_correct 53 1024 eq_refl eq_refl rne n 0 false) as Hc.
  assert (F2R (Float radix2 n 0) = IZR n) as EF by (unfold F2R; simpl; lra). rewrite EF in Hc.
  rewrite rnd64_id in Hc by (apply int_format; lia). rewrite Rlt_bool_true in Hc by (apply int_small; lia).
  destruct Hc as (_&_&Hs). etransitivity; [exact Hs|]. destruct (Z.eq_dec n 0) as [->|Hne].
  - by rewrite Rcompare_Eq.
  - rewrite Rcompare_Gt; [done|]. apply IZR_lt. lia.
Qed.
Lemma double_eq (x : binary64) n : 0 <= n < 2 ^ 53 -> finite64 x = true -> neg64 x = false -> val64 x = IZR n -> x = double_of n.
Proof.
  intros Hn Hf Hs Hv. destruct (double_of_exact n Hn) as [Ev Ef].
  apply B2R_Bsign_inj; [done|done|by rewrite Ev|by rewrite double_of_sign].
Qed.
Lemma double_add a b : 0 <= a -> 0 <= b -> a + b < 2 ^ 53 -> b64_plus rne (double_of a) (double_of b) = double_of (a + b).
Proof.
  intros Ha Hb Hs. destruct (double_of_exact a ltac:(lia)) as [Va Fa]. destruct (double_of_exact b ltac:(lia)) as [Vb Fb].
  pose proof (Bplus_correct 53 1024 eq_refl eq_refl binop_nan_pl64 rne (double_of a) (double_of b) Fa Fb) as Hc.
  change (Bplus 53 1024 _ _ binop_nan_pl64 rne) with (b64_plus rne) in Hc.
  rewrite Va, Vb, <- plus_IZR, rnd64_id in Hc by (apply int_format; lia). rewrite Rlt_bool_true in Hc by (apply int_small; lia).
  destruct Hc as (Hv&Hf&Hsg). apply double_eq; [lia|done| |done]. rewrite Hsg, !double_of_sign by lia.
  destruct (Z.eq_dec (a + b) 0) as [E|Hne]; [by rewrite E, Rcompare_Eq|]. rewrite Rcompare_Gt; [done|]. apply IZR_lt. lia.
Qed.
Lemma double_sqrt z : 0 <= z -> z * z < 2 ^ 53 -> b64_sqrt rne (double_of (z * z)) = double_of z.
Proof.
  intros Hz Hs. assert (0 <= z * z) as Hzz by (apply Z.mul_nonneg_nonneg; lia). assert (z < 2 ^ 53) as Hz' by nia.
  destruct (double_of_exact (z * z) ltac:(lia)) as [V F].
  pose proof (Bsqrt_correct 53 1024 eq_refl eq_refl unop_nan_pl64 rne (double_of (z * z))) as Hc.
  change (Bsqrt 53 1024 _ _ unop_nan_pl64 rne) with (b64_sqrt rne) in Hc. rewrite V, mult_IZR in Hc.
  rewrite sqrt_square in Hc by (apply IZR_le; lia). rewrite rnd64_id in Hc by (apply int_format; lia).
  destruct Hc as (Hv&Hf&Hsg). pose proof (double_of_sign (z * z) ltac:(lia)) as S0.
  assert (finite64 (b64_sqrt rne (double_of (z * z))) = true) as Hfin.
  { rewrite Hf. destruct (double_of (z * z)) as [s|s|s pl Hpl|s m e He]; try done. cbn in S0. by rewrite S0. }
  apply double_eq; [lia|done| |done]. rewrite Hsg; [done|]. by destruct (b64_sqrt rne (double_of (z * z))).
Qed.

(** ** Sums of integers *)
Fixpoint zsum (m : nat) (c : nat -> Z) : Z := match m with O => 0 | S m => zsum m c + c m end.
Lemma zsum_nonneg m c : (forall q, (q < m)%nat -> 0 <= c q) -> 0 <= zsum m c.
Proof. induction m as [|m IH]; intros Hc; cbn; [lia|]. pose proof (Hc m ltac:(lia)). pose proof (IH ltac:(intros; apply Hc; lia)). lia. Qed.
Lemma zsum_ext m c d : (forall q, (q < m)%nat -> c q = d q) -> zsum m c = zsum m d.
Proof. induction m as [|m IH]; intros Hc; cbn; [done|]. rewrite IH, Hc by (intros; try apply Hc; lia). done. Qed.
Lemma zsum_app a b c : zsum (a + b) c = zsum a c + zsum b (fun j => c (a + j)%nat).
Proof. induction b as [|b IH]; [rewrite Nat.add_0_r; cbn; lia|]. rewrite Nat.add_succ_r. cbn. rewrite IH. lia. Qed.
Lemma zsum_mul a b c : zsum (a * b) c = zsum a (fun i => zsum b (fun j => c (i * b + j)%nat)).
Proof. induction a as [|a IH]; [done|]. rewrite Nat.mul_succ_l, zsum_app, IH. done. Qed.
Lemma zsum_const m x : zsum m (fun _ => x) = Z.of_nat m * x.
Proof. induction m as [|m IH]; cbn -[Z.of_nat]; [done|]. rewrite IH. lia. Qed.
Lemma zsum_scale m x c : zsum m (fun q => x * c q) = x * zsum m c.
Proof. induction m as [|m IH]; cbn; [lia|]. rewrite IH. lia. Qed.
Lemma zsum_period m k h : zsum (m * k) (fun q => h (q mod k)%nat) = Z.of_nat m * zsum k h.
Proof.
  rewrite zsum_mul. rewrite <- zsum_const. apply zsum_ext. intros i _. apply zsum_ext. intros j Hj.
  rewrite Nat.add_comm, Nat.mod_add, Nat.mod_small by lia. done.
Qed.
Lemma dot_double c m : (forall q, (q < m)%nat -> 0 <= c q) -> zsum m c < 2 ^ 53 ->
  dot (fun q => double_of (c q)) (seq 0 m) = double_of (zsum m c).
Proof.
  induction m as [|m IH]; intros Hc Hs; [done|]. rewrite seq_S. unfold dot. rewrite foldl_app. cbn [foldl Nat.add].
  cbn [zsum] in Hs. pose proof (Hc m ltac:(lia)). pose proof (zsum_nonneg m c ltac:(intros; apply Hc; lia)).
  fold (dot (fun q => double_of (c q)) (seq 0 m)). rewrite IH by (intros; try apply Hc; lia). by apply double_add.
Qed.

Definition two64 : binary64 := double_of 2.
Definition sqrt64 : binary64 -> binary64 := b64_sqrt rne.
Definition fma64 : binary64 -> binary64 -> binary64 -> binary64 := b64_fma rne.
Lemma numbers64 : bench_numbers two64.
Proof. unfold bench_numbers. split_and!; apply B2FF_inj; vm_compute; reflexivity. Qed.
Lemma fma_unit64 : fma_unit two64 fma64.
Proof. unfold fma_unit. split_and!; apply B2FF_inj; vm_compute; reflexivity. Qed.
Lemma four64 : nadd two64 two64 = double_of 4.
Proof. apply B2FF_inj; vm_compute; reflexivity. Qed.
Lemma sq0 : nmul (nzero : binary64) nzero = double_of 0.
Proof. apply B2FF_inj; vm_compute; reflexivity. Qed.
Lemma sq2 : nmul two64 two64 = double_of 4.
Proof. apply B2FF_inj; vm_compute; reflexivity. Qed.
Lemma sq4 : nmul (double_of 4) (double_of 4) = double_of 16.
Proof. apply B2FF_inj; vm_compute; reflexivity. Qed.

Section Sums.
  Context (n : nat) (Hn : Z.of_nat n <= 2 ^ 25).
  Lemma nn : 0 <= Z.of_nat n * Z.of_nat n <= 2 ^ 50.
  Proof. nia. Qed.
  Lemma sum_sq_double f c : (forall i j, nmul (f i j) (f i j) = double_of (c i j)) -> (forall i j, 0 <= c i j) ->
    zsum n (fun i => zsum n (c i)) < 2 ^ 53 -> sum_sq n f = double_of (zsum n (fun i => zsum n (c i))).
  Proof.
    intros Hf Hc Hs. unfold sum_sq. rewrite (dot_ext _ (fun q => double_of (c (q / n)%nat (q mod n)%nat))) by (intros; apply Hf).
    assert (zsum (n * n) (fun q => c (q / n)%nat (q mod n)%nat) = zsum n (fun i => zsum n (c i))) as E.
    { rewrite zsum_mul. apply zsum_ext. intros i _. apply zsum_ext. intros j Hj.
      assert (((i * n + j) / n = i /\ (i * n + j) mod n = j)%nat) as [-> ->]; [|done].
      split; [rewrite Nat.div_add_l, Nat.div_small by lia; lia|rewrite Nat.add_comm, Nat.mod_add, Nat.mod_small by lia; done]. }
    rewrite <- E. apply dot_double; [intros; apply Hc|]. by rewrite E.
  Qed.
  Lemma sum_twos : sum_sq n (fun _ _ => two64) = double_of (4 * (Z.of_nat n * Z.of_nat n)).
  Proof.
    pose proof nn. assert (zsum n (fun _ => zsum n (fun _ => 4)) = 4 * (Z.of_nat n * Z.of_nat n)) as E by (rewrite !zsum_const; lia).
    rewrite (sum_sq_double (fun _ _ => two64) (fun _ _ => 4)); [by rewrite E|intros; apply sq2|lia|lia].
  Qed.
  Lemma sum_zero : sum_sq n (fun _ _ => nzero : binary64) = double_of 0.
  Proof.
    assert (zsum n (fun _ => zsum n (fun _ => 0)) = 0) as E by (rewrite !zsum_const; lia).
    rewrite (sum_sq_double (fun _ _ => nzero) (fun _ _ => 0)); [by rewrite E|intros; apply sq0|lia|lia].
  Qed.
  Lemma sum_columns : (4 | n)%nat -> sum_sq n (fun _ j => if decide (j mod 4 = 0)%nat then two64 else nzero) = double_of (Z.of_nat n * Z.of_nat n).
  Proof.
    intros [m Hm]. pose proof nn.
    set (c := fun _ j : nat => if decide (j mod 4 = 0)%nat then 4 else 0).
    assert (zsum n (fun i => zsum n (c i)) = Z.of_nat n * Z.of_nat n) as E.
    { rewrite (zsum_ext _ _ (fun _ => Z.of_nat n)); [by rewrite zsum_const|]. intros i _. unfold c.
      rewrite Hm. etransitivity; [exact (zsum_period m 4 (fun r => if decide (r = 0)%nat then 4 else 0))|]. cbn [zsum]. repeat case_decide; lia. }
    rewrite (sum_sq_double _ c); [by rewrite E| |intros; unfold c; case_decide; lia|lia].
    intros i j. unfold c. case_decide; [apply sq2|apply sq0].
  Qed.
  Lemma sum_misplaced : (8 | n)%nat -> sum_sq n (misplaced_two two64) = double_of (7 * (Z.of_nat n * Z.of_nat n)).
  Proof.
    intros [m Hm]. pose proof nn.
    set (g := fun r s => let p := (2 * r + s / 4)%nat in if (p <? 2)%nat then 4 else if (p <? 8)%nat then 16 else if (p <? 10)%nat then 4 else 0).
    set (c := fun i j => g (i mod 8)%nat (j mod 8)%nat).
    assert (zsum n (fun i => zsum n (c i)) = 7 * (Z.of_nat n * Z.of_nat n)) as E.
    { rewrite (zsum_ext _ _ (fun i => (fun r => Z.of_nat m * zsum 8 (g r)) (i mod 8)%nat)).
      - rewrite Hm. etransitivity; [exact (zsum_period m 8 (fun r => Z.of_nat m * zsum 8 (g r)))|]. rewrite (zsum_scale 8 (Z.of_nat m) (fun r => zsum 8 (g r))), Nat2Z.inj_mul.
        assert (zsum 8 (fun r => zsum 8 (g r)) = 448) as -> by (vm_compute; reflexivity). ring.
      - intros i _. unfold c. rewrite Hm. exact (zsum_period m 8 (g (i mod 8)%nat)). }
    rewrite (sum_sq_double _ c); [by rewrite E| | |lia].
    - intros i j. unfold c, g, misplaced_two. cbv zeta. destruct (_ <? 2)%nat; [apply sq2|]. destruct (_ <? 8)%nat; [rewrite four64; apply sq4|].
      destruct (_ <? 10)%nat; [apply sq2|apply sq0].
    - intros i j. unfold c, g. cbv zeta. repeat destruct (_ <? _)%nat; lia.
  Qed.
  (** Without FMA the check of multRegister is more than 5n/2. *)
  Lemma root7_ne : (0 < n)%nat -> (2 | n)%nat -> sqrt64 (double_of (7 * (Z.of_nat n * Z.of_nat n))) <> double_of (2 * Z.of_nat n).
  Proof.
    intros Hpos [m Hm] E. pose proof nn. set (N := Z.of_nat n) in *.
    destruct (double_of_exact (7 * (N * N)) ltac:(lia)) as [V F]. destruct (double_of_exact (2 * N) ltac:(lia)) as [V2 F2].
    pose proof (Bsqrt_correct 53 1024 eq_refl eq_refl unop_nan_pl64 rne (double_of (7 * (N * N)))) as (Hv&_&_).
    change (Bsqrt 53 1024 _ _ unop_nan_pl64 rne (double_of (7 * (N * N)))) with (sqrt64 (double_of (7 * (N * N)))) in Hv.
    rewrite E, V, V2 in Hv. set (M := Z.of_nat m). assert (N = 2 * M) as EN by lia.
    assert (IZR (5 * M) <= R_sqrt.sqrt (IZR (7 * (N * N))))%R as Hle.
    { rewrite <- (sqrt_square (IZR (5 * M))) by (apply IZR_le; lia). apply sqrt_le_1_alt. rewrite <- mult_IZR. apply IZR_le. rewrite EN. nia. }
    apply rnd64_le in Hle. rewrite <- Hv, rnd64_id in Hle by (apply int_format; lia). apply le_IZR in Hle. lia.
  Qed.
  Lemma root_twos : sqrt64 (sum_sq n (fun _ _ => two64)) = double_of (2 * Z.of_nat n).
  Proof.
    pose proof nn. rewrite sum_twos. unfold sqrt64.
    replace (4 * (Z.of_nat n * Z.of_nat n)) with (2 * Z.of_nat n * (2 * Z.of_nat n)) by lia. apply double_sqrt; lia.
  Qed.
  Lemma root_columns : (256 | n)%nat -> sqrt64 (sum_sq n (fun _ j => if decide (j mod 4 = 0)%nat then two64 else nzero)) = double_of (Z.of_nat n).
  Proof.
    intros H256. pose proof nn. rewrite (sum_columns (n4 n H256)). unfold sqrt64. apply double_sqrt; lia.
  Qed.
End Sums.

Section Main64.
  Context (n : nat) (p : platform binary64) (Hn8 : (8 <= n)%nat) (Hn : Z.of_nat n <= 2 ^ 25).
  Context (Haddr : forall a, a ∈ [p_A p; p_ATransposed p; p_B p; p_BTransposed p; p_C p] -> good_address n a).
  Context (Hfma : p_fma p = None \/ p_fma p = Some fma64).
  Context (Hloc : (p_reg_result p mod 4 = 0 /\ p_reg_BB p mod 4 = 0 /\ p_gpuasm_AA p mod 4 = 0 /\ p_gpuasm_BB p mod 4 = 0)%nat).
  Context (H256 : (256 | n)%nat).
  Lemma fma_ok : match p_fma p with Some f => fma_unit two64 f | None => True end.
  Proof. destruct Hfma as [->| ->]; [done|exact fma_unit64]. Qed.
  Lemma main64_right prg name rest : name ∈ right_names ->
    (name ∈ ["register"; "gpuasm"]%string -> is_Some (p_fma p)) -> (name = "asm"%string -> p_asm p = true) ->
    always (bench_main_at two64 sqrt64 n p (prg :: name :: rest)) (eq (BenchRun 0 (Some (double_of (2 * Z.of_nat n))))).
  Proof.
    intros H1 H2 H3. rewrite <- (root_twos n Hn).
    exact (main_right two64 sqrt64 n p Hn8 Haddr numbers64 fma_ok Hloc H256 prg name rest H1 H2 H3).
  Qed.
  Lemma main64_blocked4 prg rest :
    always (bench_main_at two64 sqrt64 n p (prg :: "blocked4"%string :: rest)) (eq (BenchRun 0 (Some (double_of (Z.of_nat n))))).
  Proof. rewrite <- (root_columns n Hn H256). exact (main_blocked4 two64 sqrt64 n p Hn8 Haddr numbers64 H256 prg rest). Qed.
  Lemma main64_register_no_fma prg rest : p_fma p = None ->
    always (bench_main_at two64 sqrt64 n p (prg :: "register"%string :: rest))
      (eq (BenchRun 0 (Some (sqrt64 (double_of (7 * (Z.of_nat n * Z.of_nat n))))))).
  Proof.
    intros Hno. rewrite <- (sum_misplaced n Hn (n8 n H256)).
    apply (main_register_no_fma two64 sqrt64 n p Hn8 Haddr numbers64 Hloc H256 prg rest Hno). apply B2FF_inj; vm_compute; reflexivity.
  Qed.
  Lemma main64_zero prg name rest :
    name = "gpuasm"%string /\ p_fma p = None \/ name = "asm"%string /\ p_asm p = false ->
    always (bench_main_at two64 sqrt64 n p (prg :: name :: rest)) (eq (BenchRun 0 (Some (double_of 0)))).
  Proof.
    intros Hc. assert (sqrt64 (sum_sq n (fun _ _ => nzero : binary64)) = double_of 0) as <-.
    { rewrite (sum_zero n). apply (double_sqrt 0); lia. }
    exact (main_zero two64 sqrt64 n p Hn8 Haddr numbers64 Hloc H256 prg name rest Hc).
  Qed.
End Main64.
Lemma bench_n_Z : Z.of_nat bench_n = 4096.
Proof. reflexivity. Qed.
Lemma bench_n_8 : (8 <= bench_n)%nat. Proof. exact (proj1 (Nat.leb_le 8 bench_n) eq_refl). Qed.
Lemma bench_n_small : Z.of_nat bench_n <= 2 ^ 25. Proof. rewrite bench_n_Z. lia. Qed.
Lemma bench_n_256 : (256 | bench_n)%nat. Proof. exact (ex_intro _ 16%nat eq_refl). Qed.
