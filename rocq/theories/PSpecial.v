(** NaNs, infinities and signed zeros in the products. *)
From Coq Require Import ZArith Reals Psatz.
From Flocq Require Import Core IEEE754.Binary IEEE754.Bits.
From Verif Require Import Conc ConcFacts Base Num Spec SpecTiled Tools MCeil PCeil MDouble PDouble SpecContract MContract SpecApp SpecRound PRound PRound2 PContract PContract2 PContract3 PRecursive MApp SpecSpecial.
Local Open Scope R_scope.

(** ** Only row and column matter *)
Lemma entry_same {T} `{NumOps T} tr q N (A B A' B' : list T) i j : order_ok N tr q -> (i < N)%nat -> (j < N)%nat ->
  same_inputs tr N i j A B A' B' -> entry_in tr q N A B i j = entry_in tr q N A' B' i j.
Proof.
  intros Hq Hi Hj Hs. destruct q as [|b|b]; cbn [entry_in order_ok] in *.
  - unfold pentry, prod_entry, prod_t_entry. destruct tr; apply dot_ext; intros k Hk%elem_of_seq; destruct (Hs k ltac:(lia)) as [-> E];
      unfold factor in E; by rewrite E.
  - destruct Hq as (->&Hb&[Q E]). unfold prod_t_chunks, dot_chunks. apply dot_ext. intros q Hq%elem_of_seq. apply dot_ext. intros k Hk%elem_of_seq.
    assert (HQ : (N / b)%nat = Q) by (rewrite E; apply Nat.div_mul; lia).
    destruct (Hs k ltac:(nia)) as [-> E']. unfold factor in E'. by rewrite E'.
  - destruct Hq as (->&_). unfold tiled_entry, dot_chunks. apply dot_ext. intros q _. apply dot_ext. intros k _. unfold pent.
    destruct (decide (k < N)%nat) as [Hk|Hk]; [|rewrite !decide_False by lia; done].
    rewrite !decide_True by lia. destruct (Hs k Hk) as [-> E']. unfold factor in E'. by rewrite E'.
Qed.

(** ** NaNs *)
Lemma nadd_nan (x y : binary64) : nan64 x = true \/ nan64 y = true -> nan64 (nadd x y) = true.
Proof. destruct x, y; cbn; intros [H|H]; try discriminate; reflexivity. Qed.
Lemma nmul_nan (x y : binary64) : nan64 x = true \/ nan64 y = true -> nan64 (nmul x y) = true.
Proof. destruct x, y; cbn; intros [H|H]; try discriminate; reflexivity. Qed.
Lemma fma_nan (x y z : binary64) : nan64 x = true \/ nan64 y = true \/ nan64 z = true -> nan64 (fma64 x y z) = true.
Proof. destruct x, y, z; cbn; intros [H|[H|H]]; try discriminate; reflexivity. Qed.
Lemma muladd_nan s x y s' : muladd s x y s' -> nan64 s = true \/ nan64 x = true \/ nan64 y = true -> nan64 s' = true.
Proof.
  intros [->| ->] H.
  - apply nadd_nan. destruct H as [H|H]; [by left|]. right. by apply nmul_nan.
  - apply fma_nan. tauto.
Qed.
Lemma msum_nan x y ks v : msum x y ks v -> (exists k, k ∈ ks /\ (nan64 (x k) = true \/ nan64 (y k) = true)) -> nan64 v = true.
Proof.
  induction 1 as [|ks k s s' Hs IH Hm]; intros (k'&Hk'&H); [by apply elem_of_nil in Hk'|].
  apply (muladd_nan _ _ _ _ Hm). apply elem_of_app in Hk' as [Hk'|Hk'%elem_of_list_singleton]; [left; apply IH; by exists k'|subst k'; by right].
Qed.
Lemma csum_nan (c : nat -> binary64 -> Prop) qs v : csum c qs v -> (exists q, q ∈ qs /\ forall t, c q t -> nan64 t = true) -> nan64 v = true.
Proof.
  induction 1 as [|qs q s t Hs IH Hc]; intros (q'&Hq'&H); [by apply elem_of_nil in Hq'|].
  apply nadd_nan. apply elem_of_app in Hq' as [Hq'|Hq'%elem_of_list_singleton]; [left; apply IH; by exists q'|subst q'; right; by apply H].
Qed.

(** ** Infinities *)
Lemma msum_inputs x y ks v : msum x y ks v -> finite64 v = true -> forall k, k ∈ ks -> finite64 (x k) = true /\ finite64 (y k) = true.
Proof.
  induction 1 as [|ks k s s' Hs IH Hm]; intros Hf k' Hk'; [by apply elem_of_nil in Hk'|].
  destruct (muladd_err _ _ _ _ Hm Hf) as (H1&H2&H3&_).
  apply elem_of_app in Hk' as [Hk'|Hk'%elem_of_list_singleton]; [by apply IH|by subst k'].
Qed.
Lemma csum_inputs (c : nat -> binary64 -> Prop) qs v : csum c qs v -> finite64 v = true -> forall q, q ∈ qs -> exists t, c q t /\ finite64 t = true.
Proof.
  induction 1 as [|qs q s t Hs IH Hc]; intros Hf q' Hq'; [by apply elem_of_nil in Hq'|].
  destruct (add_value _ _ Hf) as (H1&H2&_).
  apply elem_of_app in Hq' as [Hq'|Hq'%elem_of_list_singleton]; [by apply IH|subst q'; by exists t].
Qed.

(** ** No overflow *)
Notation half_max := (bpow radix2 1022).
Lemma half_max_big : 1 <= half_max.
Proof. change 1 with (bpow radix2 0). apply bpow_le. lia. Qed.
Lemma half_max_1000 : 1000 <= half_max.
Proof. apply Rle_trans with (bpow radix2 10); [change (bpow radix2 10) with 1024; lra|apply bpow_le; lia]. Qed.
Lemma max_double : bpow radix2 1024 = 4 * half_max.
Proof. change 4 with (bpow radix2 2). rewrite <- bpow_plus. reflexivity. Qed.
Lemma rnd_below r : Rabs r <= 13 / 4 * half_max -> Rabs (rnd64 r) < bpow radix2 1024.
Proof.
  intros Hr. pose proof (rnd_mult_err r) as He. pose proof uro_small. pose proof uro_pos. pose proof half_max_big. rewrite max_double.
  assert (tiny <= 1 / 1000000).
  { apply Rle_trans with uro; [apply bpow_le; lia|lra]. }
  replace (rnd64 r) with ((rnd64 r - r) + r) by lra. eapply Rle_lt_trans; [apply Rabs_triang|].
  pose proof (Rabs_pos r). assert (uro * Rabs r <= / 1000000 * (13 / 4 * half_max)) by (apply Rmult_le_compat; lra).
  set (h := half_max) in *. clearbody h. lra.
Qed.
Section Bounded.
  Context (x y : nat -> binary64) (N : nat).
  Hypothesis Hdead : forall k, (N <= k)%nat -> val64 (x k) * val64 (y k) = 0.
  Hypothesis Hx : forall k, finite64 (x k) = true.
  Hypothesis Hy : forall k, finite64 (y k) = true.
  Let g (k : nat) : R := val64 (x k) * val64 (y k).
  Let ga (k : nat) : R := Rabs (g k).
  Let c (k : nat) : R := if decide (k < N)%nat then 1 else 0.
  Lemma ga_nonneg ks : 0 <= rsum ga ks.
  Proof. clear. apply rsum_nonneg. intros k _. apply Rabs_pos. Qed.
  Lemma cc_nonneg ks : 0 <= rsum c ks.
  Proof. clear. apply rsum_nonneg. intros k _. unfold c. destruct (decide _); lra. Qed.
  Lemma msum_abs ks v : msum x y ks v -> finite64 v = true ->
    Rabs (val64 v) <= w (1 + live N ks) * (rsum ga ks + rsum c ks * tiny).
  Proof.
    intros Hm Hf. pose proof (msum_err x y N Hdead ks v Hm Hf) as He. fold g in He. fold c in He.
    change (rsum (fun k => Rabs (g k)) ks) with (rsum ga ks) in He.
    assert (HS : Rabs (rsum g ks) <= rsum ga ks) by apply rsum_abs.
    pose proof (Rabs_triang (val64 v - rsum g ks) (rsum g ks)) as Ht. replace (val64 v - rsum g ks + rsum g ks) with (val64 v) in Ht by lra.
    set (W := w (1 + live N ks)) in *. clearbody W. lra.
  Qed.
  Lemma msum_fin ks v : msum x y ks v -> w (1 + live N ks) <= 2 -> rsum ga ks + rsum c ks * tiny <= half_max + 1 -> finite64 v = true.
  Proof.
    induction 1 as [|ks k s s' Hs IH Hm]; intros Hw Hb; [done|].
    rewrite live_snoc in Hw. rewrite !rsum_app in Hb. cbn [rsum foldr] in Hb. rewrite !Rplus_0_r in Hb.
    assert (Hck : 0 <= c k) by (clear; unfold c; destruct (decide _); lra). pose proof tiny_pos as Htp.
    assert (Hgk : 0 <= ga k) by (clear; apply Rabs_pos).
    pose proof (ga_nonneg ks) as Hga. pose proof (cc_nonneg ks) as Hcc.
    assert (Hct : 0 <= c k * tiny) by (apply Rmult_le_pos; [done|clear -Htp; lra]).
    assert (Hcct : 0 <= rsum c ks * tiny) by (apply Rmult_le_pos; [done|clear -Htp; lra]).
    assert (Hw' : w (1 + live N ks) <= 2).
    { eapply Rle_trans; [|exact Hw]. apply w_mono. clear. lia. }
    change (foldr (fun (k : nat) (s : R) => ga k + s) 0 ks) with (rsum ga ks) in Hb.
    change (foldr (fun (k : nat) (s : R) => c k + s) 0 ks) with (rsum c ks) in Hb.
    assert (Hb' : rsum ga ks + rsum c ks * tiny <= half_max + 1) by (rewrite Rmult_plus_distr_r in Hb; clear -Hb Hct Hgk; lra).
    assert (Hsf : finite64 s = true) by (by apply IH).
    pose proof (msum_abs ks s Hs Hsf) as Ha.
    assert (Ha' : Rabs (val64 s) <= 2 * (rsum ga ks + rsum c ks * tiny)).
    { eapply Rle_trans; [exact Ha|]. apply Rmult_le_compat_r; [clear -Hga Hcct; lra|exact Hw']. }
    assert (Hg : Rabs (val64 (x k) * val64 (y k)) = ga k) by reflexivity.
    rewrite Rmult_plus_distr_r in Hb. pose proof half_max_1000 as HH. pose proof (rnd_mult_err (val64 (x k) * val64 (y k))) as He. rewrite Hg in He.
    pose proof uro_small as Hu1. pose proof uro_pos as Hu0. assert (Htu : tiny <= uro) by (apply bpow_le; lia).
    assert (Hgb : ga k <= half_max + 1) by (clear -Hb Hga Hct Hcct; lra).
    assert (Hgu : uro * ga k <= / 1000000 * ga k) by (apply Rmult_le_compat_r; [exact Hgk|exact Hu1]).
    pose proof rnd_below as Hrb. set (H := half_max) in *. clearbody H.
    destruct Hm as [->| ->].
    - assert (Hpf : finite64 (nmul (x k) (y k)) = true).
      { apply mul_finite; [done|done|]. apply Hrb. rewrite Hg. clear -Hgb HH. lra. }
      destruct (mul_value _ _ Hpf) as (_&_&Hv). apply add_finite; [done|done|]. apply Hrb. rewrite Hv.
      eapply Rle_trans; [apply Rabs_triang|].
      pose proof (Rabs_triang (rnd64 (val64 (x k) * val64 (y k)) - val64 (x k) * val64 (y k)) (val64 (x k) * val64 (y k))) as Ht.
      rewrite Hg in Ht. replace (rnd64 (val64 (x k) * val64 (y k)) - val64 (x k) * val64 (y k) + val64 (x k) * val64 (y k)) with (rnd64 (val64 (x k) * val64 (y k))) in Ht by (clear; lra).
      clear -Ha' Ht He Hgu Htu Hu1 Hb Hct Hcct Hga Hgk HH. lra.
    - apply fma_finite; [done|done|done|]. apply Hrb. eapply Rle_trans; [apply Rabs_triang|]. rewrite Hg.
      clear -Ha' Hb Hct Hcct Hga Hgk HH. lra.
  Qed.
End Bounded.

(** ** The orders *)
Section Shapes.
  Context (N : nat) (x y : nat -> binary64).
  Hypothesis Hx0 : forall k, (N <= k)%nat -> x k = nzero.
  Hypothesis Hy0 : forall k, (N <= k)%nat -> y k = nzero.
  Hypothesis Hx : forall k, finite64 (x k) = true.
  Hypothesis Hy : forall k, finite64 (y k) = true.
  Hypothesis HN : (Z.of_nat N <= 524288)%Z.
  Let ga (k : nat) : R := Rabs (val64 (x k) * val64 (y k)).
  Let c (k : nat) : R := if decide (k < N)%nat then 1 else 0.
  Hypothesis Hmag : rsum ga (seq 0 N) <= half_max.
  Lemma c_total : rsum c (seq 0 N) = INR N.
  Proof. exact (sum_c N). Qed.
  Lemma N_tiny : INR N * tiny <= 1.
  Proof.
    assert (HNr : INR N <= 524288) by (rewrite INR_IZR_INZ; apply IZR_le; exact HN). pose proof uro_small. pose proof tiny_pos as Ht.
    assert (tiny <= uro) by (apply bpow_le; lia). pose proof (pos_INR N).
    apply Rle_trans with (524288 * / 1000000); [|lra]. apply Rmult_le_compat; lra.
  Qed.
  Lemma straight_fin v : msum x y (seq 0 N) v -> finite64 v = true.
  Proof.
    intros Hm. apply (msum_fin x y N (dead N x y Hx0) Hx Hy _ _ Hm).
    - apply w_two. pose proof (live_N N _ (NoDup_seq 0 N)) as HL. clear -HL HN. lia.
    - fold c ga. rewrite c_total. pose proof N_tiny as H1. change (fun k => Rabs (val64 (x k) * val64 (y k))) with ga. clear -H1 Hmag. lra.
  Qed.
  Context (b Q : nat) (Hb : (0 < b)%nat) (HQ : (N <= Q * b)%nat).
  Let ch (q : nat) : list nat := seq (q * b) b.
  Let mass (q : nat) : R := rsum ga (ch q) + rsum c (ch q) * tiny.
  Lemma mass_nonneg q : 0 <= mass q.
  Proof.
    pose proof (ga_nonneg x y (ch q)) as H1. pose proof (cc_nonneg N (ch q)) as H2. pose proof tiny_pos as H3. unfold mass.
    change (rsum ga (ch q)) with (rsum (fun k => Rabs (val64 (x k) * val64 (y k))) (ch q)).
    assert (0 <= rsum c (ch q) * tiny) by (apply Rmult_le_pos; [exact H2|clear -H3; lra]). clear -H H1. lra.
  Qed.
  Lemma mass_total : rsum mass (seq 0 Q) <= half_max + 1.
  Proof.
    unfold mass. rewrite rsum_plus. rewrite (rsum_ext (fun q => rsum c (ch q) * tiny) (fun q => tiny * rsum c (ch q))) by (intros; apply Rmult_comm).
    rewrite rsum_mult. unfold ch. rewrite !rsum_chunks.
    rewrite (rsum_pad ga N (Q * b)) by (first [done | intros k Hk; unfold ga; rewrite (dead N x y Hx0) by lia; apply Rabs_R0]).
    rewrite (rsum_pad c N (Q * b)) by (first [done | intros k Hk; unfold c; rewrite decide_False by lia; done]).
    rewrite c_total. pose proof N_tiny as H1. rewrite Rmult_comm. clear -H1 Hmag. lra.
  Qed.
  Lemma mass_one q : q ∈ seq 0 Q -> mass q <= half_max + 1.
  Proof.
    intros Hq. eapply Rle_trans; [|exact mass_total]. apply elem_of_list_split in Hq as (l1&l2&->). rewrite rsum_app. cbn [rsum foldr].
    pose proof (rsum_nonneg mass l1 (fun q _ => mass_nonneg q)) as H1. pose proof (rsum_nonneg mass l2 (fun q _ => mass_nonneg q)) as H2.
    unfold rsum in *. clear -H1 H2. lra.
  Qed.
  Lemma chunked_fin v : csum (fun q => msum x y (ch q)) (seq 0 Q) v -> finite64 v = true.
  Proof.
    intros (f&->&Hm)%csum_dot; [|apply NoDup_seq].
    assert (Hw : forall q, w (1 + live N (ch q)) <= w (1 + b `min` N)).
    { intros q. apply w_mono. pose proof (live_chunk N b q) as HL. unfold ch. lia. }
    pose proof (exponent N b Q Hb) as Hexp.
    assert (Hw2 : w (1 + b `min` N) <= 2) by (apply w_two; lia).
    assert (Hin : forall q, q ∈ seq 0 Q -> finite64 (f q) = true /\ Rabs (val64 (f q)) <= w (1 + b `min` N) * mass q).
    { intros q Hq. assert (Hf : finite64 (f q) = true).
      { apply (msum_fin x y N (dead N x y Hx0) Hx Hy _ _ (Hm q Hq)); [eapply Rle_trans; [apply Hw|exact Hw2]|exact (mass_one q Hq)]. }
      split; [done|]. eapply Rle_trans; [exact (msum_abs x y N (dead N x y Hx0) _ _ (Hm q Hq) Hf)|].
      apply Rmult_le_compat_r; [exact (mass_nonneg q)|apply Hw]. }
    apply dot64_finite; [intros q Hq; by apply Hin|].
    assert (Hcnt : (cnt f (seq 0 Q) <= cdiv N b)%nat) by (apply (outer_cnt N x y Hx0 b Q Hb HQ f Hm); intros q Hq; by apply Hin).
    assert (Hsum : rsum (fun q => Rabs (val64 (f q))) (seq 0 Q) <= w (1 + b `min` N) * (half_max + 1)).
    { eapply Rle_trans; [apply (rsum_le _ (fun q => w (1 + b `min` N) * mass q)); intros q Hq; by apply Hin|].
      rewrite rsum_mult. apply Rmult_le_compat_l; [pose proof (w_ge (1 + b `min` N)) as H1; clear -H1; lra|exact mass_total]. }
    assert (Hpos : 0 <= rsum (fun q => Rabs (val64 (f q))) (seq 0 Q)) by (apply rsum_nonneg; intros; apply Rabs_pos).
    apply Rle_lt_trans with (w (cdiv N b) * (w (1 + b `min` N) * (half_max + 1))).
    { apply Rmult_le_compat; [pose proof (w_ge (cnt f (seq 0 Q))) as H1; clear -H1; lra|exact Hpos|by apply w_mono|exact Hsum]. }
    rewrite <- Rmult_assoc, <- pow_add. pose proof half_max_1000 as HH. rewrite max_double.
    assert (Hw3 : w (cdiv N b + (1 + b `min` N)) <= 2) by (apply w_two; lia).
    apply Rle_lt_trans with (2 * (half_max + 1)); [apply Rmult_le_compat_r; [clear -HH; lra|exact Hw3]|clear -HH; lra].
  Qed.
End Shapes.

(** ** One entry *)
Section Entry.
  Context (N : nat) (A B : list binary64) (i j : nat).
  Hypothesis HA : (length A = N * N)%nat.
  Hypothesis HB : (length B = N * N)%nat.
  Hypothesis Hi : (i < N)%nat.
  Hypothesis Hj : (j < N)%nat.
  Let x (k : nat) : binary64 := if decide (k < N)%nat then ent N A i k else nzero.
  Let y (tr : bool) (k : nat) : binary64 := if decide (k < N)%nat then if tr then ent N B j k else ent N B k j else nzero.
  Lemma x_in k : (k < N)%nat -> x k = ent N A i k.
  Proof. intros Hk. unfold x. by rewrite decide_True by done. Qed.
  Lemma y_in tr k : (k < N)%nat -> y tr k = factor tr N B k j.
  Proof. intros Hk. unfold y, factor. by rewrite decide_True by done. Qed.
  Lemma chunk_of b Q k : (0 < b)%nat -> (N <= Q * b)%nat -> (k < N)%nat -> exists q, q ∈ seq 0 Q /\ k ∈ seq (q * b) b.
  Proof.
    intros Hb HQ Hk. pose proof (Nat.div_mod k b ltac:(lia)). pose proof (Nat.mod_upper_bound k b ltac:(lia)).
    exists (k / b)%nat. rewrite !elem_of_seq. split; [|lia]. split; [lia|]. nia.
  Qed.
  Lemma entry_nan tr q v : order_ok N tr q -> compiled (entry_in tr q N (TNum <$> A) (TNum <$> B) i j) v -> nan_input tr N i j A B -> nan64 v = true.
  Proof.
    intros Hq Hv (k&Hk&H). rewrite <- x_in, <- (y_in tr) in H by done.
    destruct (entry_form N A B i j HA HB Hi Hj tr q Hq) as [E|(b&Q&Hb&HQ&E)]; rewrite E in Hv.
    - apply compiled_msum in Hv. apply (msum_nan _ _ _ _ Hv). exists k. split; [apply elem_of_seq; lia|exact H].
    - apply compiled_csum in Hv. apply (csum_nan _ _ _ Hv). destruct (chunk_of b Q k Hb HQ Hk) as (q'&Hq'&Hk'). exists q'. split; [done|].
      intros t Ht. apply (msum_nan _ _ _ _ Ht). by exists k.
  Qed.
  Lemma entry_inputs tr q v : order_ok N tr q -> compiled (entry_in tr q N (TNum <$> A) (TNum <$> B) i j) v -> finite64 v = true -> finite_inputs tr N i j A B.
  Proof.
    intros Hq Hv Hf k Hk. rewrite <- x_in, <- (y_in tr) by done.
    destruct (entry_form N A B i j HA HB Hi Hj tr q Hq) as [E|(b&Q&Hb&HQ&E)]; rewrite E in Hv.
    - apply compiled_msum in Hv. apply (msum_inputs _ _ _ _ Hv Hf). apply elem_of_seq. lia.
    - apply compiled_csum in Hv. destruct (chunk_of b Q k Hb HQ Hk) as (q'&Hq'&Hk').
      destruct (csum_inputs _ _ _ Hv Hf q' Hq') as (t&Ht&Htf). exact (msum_inputs _ _ _ _ Ht Htf k Hk').
  Qed.
  Lemma entry_fin tr q v : order_ok N tr q -> compiled (entry_in tr q N (TNum <$> A) (TNum <$> B) i j) v ->
    (Z.of_nat N <= 524288)%Z -> magnitude tr N A B i j <= half_max -> finite_inputs tr N i j A B -> finite64 v = true.
  Proof.
    intros Hq Hv HN Hmag Hin.
    assert (Hx : forall k, finite64 (x k) = true).
    { intros k. destruct (decide (k < N)%nat) as [Hk|Hk]; [rewrite x_in by done; by apply Hin|]. unfold x. by rewrite decide_False by done. }
    assert (Hy : forall k, finite64 (y tr k) = true).
    { intros k. destruct (decide (k < N)%nat) as [Hk|Hk]; [rewrite y_in by done; by apply Hin|]. unfold y. by rewrite decide_False by done. }
    assert (Hmag' : rsum (fun k => Rabs (val64 (x k) * val64 (y tr k))) (seq 0 N) <= half_max).
    { eapply Rle_trans; [|exact Hmag]. unfold magnitude, factor_b. apply Req_le, rsum_ext. intros k Hk%elem_of_seq.
      rewrite x_in, y_in by lia. reflexivity. }
    destruct (entry_form N A B i j HA HB Hi Hj tr q Hq) as [E|(b&Q&Hb&HQ&E)]; rewrite E in Hv.
    - apply compiled_msum in Hv. exact (straight_fin N x (y tr) (x_out N A B i j HA HB Hi Hj) Hx Hy HN Hmag' v Hv).
    - apply compiled_csum in Hv. exact (chunked_fin N x (y tr) (x_out N A B i j HA HB Hi Hj) Hx Hy HN Hmag' b Q Hb HQ v Hv).
  Qed.
End Entry.

(** ** The variants *)
Lemma confined {T} `{NumOps T} o G v (A B A' B' : list T) i j :
  length A = (o_n o * o_n o)%nat -> length B = (o_n o * o_n o)%nat -> length A' = (o_n o * o_n o)%nat -> length B' = (o_n o * o_n o)%nat ->
  flag_ok o v -> suitable o G v -> (i < o_n o)%nat -> (j < o_n o)%nat -> same_inputs (multiplies o v) (o_n o) i j A B A' B' ->
  exists e, always_tol (tolerated v) (computation o G v A B) (fun C => C !! (i * o_n o + j)%nat = Some e) /\
    always_tol (tolerated v) (computation o G v A' B') (fun C => C !! (i * o_n o + j)%nat = Some e).
Proof.
  intros HA HB HA' HB' Hf Hs Hi Hj Hsame. destruct (same_order o G v Hf Hs) as (q&Hq&Hal).
  exists (entry_in (multiplies o v) (q i j) (o_n o) A B i j). split.
  - eapply must_mono; [|exact (Hal T _ A B HA HB)]. intros C m [_ HC]. by apply HC.
  - eapply must_mono; [|exact (Hal T _ A' B' HA' HB')]. intros C m [_ HC]. cbv beta.
    rewrite (entry_same _ _ _ A B A' B' i j (Hq i j Hi Hj) Hi Hj Hsame). by apply HC.
Qed.
Lemma special o G v A B : length A = (o_n o * o_n o)%nat -> length B = (o_n o * o_n o)%nat -> flag_ok o v -> suitable o G v ->
  always_tol (tolerated v) (computation o G v (TNum <$> A) (TNum <$> B)) (fun D =>
    forall C, Forall2 compiled D C -> forall i j, (i < o_n o)%nat -> (j < o_n o)%nat -> exists c, C !! (i * o_n o + j)%nat = Some c /\
      (nan_input (multiplies o v) (o_n o) i j A B -> nan64 c = true) /\
      (finite64 c = true -> finite_inputs (multiplies o v) (o_n o) i j A B) /\
      ((Z.of_nat (o_n o) <= 524288)%Z -> magnitude (multiplies o v) (o_n o) A B i j <= half_max ->
        finite_inputs (multiplies o v) (o_n o) i j A B -> finite64 c = true)).
Proof.
  intros HA HB Hf Hs. destruct (same_order o G v Hf Hs) as (q&Hq&Hal).
  eapply must_mono; [|exact (Hal term _ _ _ (term_length _ _ HA) (term_length _ _ HB))].
  intros D m HD C HC i j Hi Hj. destruct (compiled_entry _ _ _ _ _ _ HD HC Hi Hj) as (c&Hc&Hcc).
  exists c. split; [done|]. split; [|split].
  - exact (entry_nan _ A B i j HA HB Hi Hj _ _ c (Hq i j Hi Hj) Hcc).
  - exact (entry_inputs _ A B i j HA HB Hi Hj _ _ c (Hq i j Hi Hj) Hcc).
  - exact (entry_fin _ A B i j HA HB Hi Hj _ _ c (Hq i j Hi Hj) Hcc).
Qed.

(** ** Signed zeros *)
Lemma nadd_not_minus_zero (s p : binary64) : s <> minus_zero -> nadd s p <> minus_zero.
Proof.
  intros Hs E.
  assert (Hf : finite64 (nadd s p) = true) by (by rewrite E). destruct (add_value _ _ Hf) as (Hsf&Hpf&Hv).
  rewrite E in Hv. change (val64 minus_zero) with 0 in Hv.
  pose proof (rnd_plus_err s p) as He. rewrite <- Hv, Rminus_0_l, Rabs_Ropp in He.
  pose proof uro_small as Hu. pose proof (Rabs_pos (val64 s + val64 p)) as Hr.
  assert (H0 : val64 s + val64 p = 0).
  { destruct (Req_dec (val64 s + val64 p) 0) as [?|Hne]; [done|]. apply Rabs_pos_lt in Hne.
    assert (uro * Rabs (val64 s + val64 p) <= / 1000000 * Rabs (val64 s + val64 p)) by (by apply Rmult_le_compat_r).
    set (r := Rabs (val64 s + val64 p)) in *. clearbody r. exfalso. lra. }
  pose proof (Bplus_correct 53 1024 eq_refl eq_refl binop_nan_pl64 rne s p Hsf Hpf) as Hc.
  rewrite H0 in Hc. unfold BinarySingleNaN.round_mode in Hc. rewrite round_0 in Hc by apply valid_rnd_N. rewrite Rabs_R0, Rlt_bool_true in Hc by apply bpow_gt_0.
  destruct Hc as (_&_&Hsign). rewrite Rcompare_Eq in Hsign by done.
  change (Bplus 53 1024 eq_refl eq_refl binop_nan_pl64 rne s p) with (nadd s p) in Hsign. rewrite E in Hsign. cbn in Hsign.
  symmetry in Hsign. apply andb_true_iff in Hsign as [H1 H2]. apply Hs.
  assert (Hle : forall z : binary64, finite64 z = true -> neg64 z = true -> val64 z <= 0 /\ (val64 z = 0 -> z = minus_zero)).
  { clear. intros [sg|sg|sg pl|sg m e Hb]; cbn; try done; intros _ ->.
    - split; [lra|done].
    - pose proof (F2R_lt_0 radix2 (Float radix2 (Z.neg m) e) eq_refl) as H. set (r := F2R _) in *. clearbody r. split; [lra|]. intros ->. exfalso. lra. }
  destruct (Hle s Hsf H1) as [A1 A2]. destruct (Hle p Hpf H2) as [B1 _]. apply A2. lra.
Qed.
Lemma dot_not_minus_zero (f : nat -> binary64) ks : dot f ks <> minus_zero.
Proof. induction ks as [|k ks IH] using rev_ind; [done|]. rewrite dot_snoc'. by apply nadd_not_minus_zero. Qed.
Lemma no_minus_zero o G v (A B : list binary64) : length A = (o_n o * o_n o)%nat -> length B = (o_n o * o_n o)%nat -> flag_ok o v -> suitable o G v ->
  always_tol (tolerated v) (computation o G v A B) (fun C => minus_zero ∉ C).
Proof.
  intros HA HB Hf Hs. destruct (same_order o G v Hf Hs) as (q&Hq&Hal).
  eapply must_mono; [|exact (Hal binary64 _ A B HA HB)]. intros C m [HL HC] (p&Hp)%elem_of_list_lookup.
  pose proof (lookup_lt_Some _ _ _ Hp) as Hlt. rewrite HL in Hlt. set (N := o_n o) in *.
  assert (HN : (0 < N)%nat) by (clear -Hlt; nia).
  pose proof (Nat.div_mod p N ltac:(lia)) as Ed. pose proof (Nat.mod_upper_bound p N ltac:(lia)) as Hm.
  assert (Hd : (p / N < N)%nat) by (apply Nat.div_lt_upper_bound; lia).
  specialize (HC (p / N)%nat (p mod N)%nat Hd Hm). replace (p / N * N + p mod N)%nat with p in HC by lia.
  rewrite Hp in HC. injection HC as E. symmetry in E. revert E.
  destruct (q (p / N)%nat (p mod N)%nat); cbn [entry_in]; unfold pentry, prod_entry, prod_t_entry, prod_t_chunks, tiled_entry, dot_chunks;
    [destruct (multiplies o v)|..]; apply dot_not_minus_zero.
Qed.
