(** Sums of products in any order. *)
From Coq Require Import ZArith Reals Psatz.
From Flocq Require Import Core Relative IEEE754.Binary IEEE754.Bits.
From Verif Require Import Base Num Spec SpecTiled MCeil PCeil MDouble PDouble MContract MFast MApp SpecApp SpecRound PRound PContract PContract3 SpecFast.
Local Open Scope R_scope.

Lemma rsum_perm f ks ls : ks ≡ₚ ls -> rsum f ks = rsum f ls.
Proof.
  induction 1 as [|k ks ls _ IH|k l ks|ks ls ms _ IH1 _ IH2]; [done| | |by rewrite IH1].
  - change (f k + rsum f ks = f k + rsum f ls). by rewrite IH.
  - change (f l + (f k + rsum f ks) = f k + (f l + rsum f ks)). ring.
Qed.
Section Sums.
  Context (x y : nat -> binary64).
  Let g (k : nat) : R := val64 (x k) * val64 (y k).

  (** [prods e ks]: the term adds up the products number ks, and zeros. *)
  Inductive prods : term -> list nat -> Prop :=
  | pr_zero : prods (TNum nzero) []
  | pr_dead : prods (TMul (TNum nzero) (TNum nzero)) []
  | pr_mul k : prods (TMul (TNum (x k)) (TNum (y k))) [k]
  | pr_mul' k : prods (TMul (TNum (y k)) (TNum (x k))) [k]
  | pr_add a b ks ls : prods a ks -> prods b ls -> prods (TAdd a b) (ks ++ ls).

  Lemma prods_num_inv z ks : prods (TNum z) ks -> ks = [] /\ z = nzero.
  Proof. inversion 1. done. Qed.
  Lemma prods_add_inv a b ks : prods (TAdd a b) ks -> exists k1 k2, ks = k1 ++ k2 /\ prods a k1 /\ prods b k2.
  Proof. inversion 1. eauto. Qed.
  Lemma prods_mul_comm a b ks : prods (TMul a b) ks -> prods (TMul b a) ks.
  Proof. inversion 1; constructor. Qed.
  Lemma prods_mul_inv a b ks : prods (TMul a b) ks -> exists p q, a = TNum p /\ b = TNum q /\
    (p = nzero /\ q = nzero /\ ks = [] \/ exists k, ks = [k] /\ (p = x k /\ q = y k \/ p = y k /\ q = x k)).
  Proof. inversion 1; eexists _, _; (split; [reflexivity|]); (split; [reflexivity|]); [by left|right; eauto 6..]. Qed.
  Lemma prods_value a b ks : prods (TMul a b) ks -> exists p q, a = TNum p /\ b = TNum q /\
    val64 p * val64 q = rsum g ks /\ Rabs (val64 p * val64 q) = rsum (fun k => Rabs (g k)) ks /\ (length ks <= 1)%nat.
  Proof.
    intros (p&q&->&->&[(->&->&->)|(k&->&Hk)])%prods_mul_inv; exists p, q || exists nzero, nzero; (split; [reflexivity|]); (split; [reflexivity|]).
    - cbn [rsum foldr length]. change (val64 nzero) with 0. rewrite Rmult_0_l, Rabs_R0. split; [done|]. split; [done|]. lia.
    - cbn [rsum foldr length]. unfold g. destruct Hk as [[-> ->]|[-> ->]]; rewrite ?Rplus_0_r; (split; [lra|]); (split; [|lia]); f_equal; lra.
  Qed.

  Lemma prods_rearranged e e' : rearranged e e' ->
    (forall ks, prods e ks -> exists ks', ks' ≡ₚ ks /\ prods e' ks') /\ (forall ks, prods e' ks -> exists ks', ks' ≡ₚ ks /\ prods e ks').
  Proof.
    induction 1 as [e|e e' _ [IH1 IH2]|e e' e'' _ [IH1 IH2] _ [IH3 IH4]|a a' b b' _ [IH1 IH2] _ [IH3 IH4]|a b|a b c|a|a b].
    - split; intros ks Hk; by exists ks.
    - done.
    - split; intros ks Hk.
      + destruct (IH1 _ Hk) as (k1&E1&H1). destruct (IH3 _ H1) as (k2&E2&H2). exists k2. split; [by rewrite E2|done].
      + destruct (IH4 _ Hk) as (k1&E1&H1). destruct (IH2 _ H1) as (k2&E2&H2). exists k2. split; [by rewrite E2|done].
    - split; intros ks (k1&k2&->&H1&H2)%prods_add_inv.
      + destruct (IH1 _ H1) as (l1&E1&P1). destruct (IH3 _ H2) as (l2&E2&P2). exists (l1 ++ l2). split; [by rewrite E1, E2|by constructor].
      + destruct (IH2 _ H1) as (l1&E1&P1). destruct (IH4 _ H2) as (l2&E2&P2). exists (l1 ++ l2). split; [by rewrite E1, E2|by constructor].
    - split; intros ks (k1&k2&->&H1&H2)%prods_add_inv; exists (k2 ++ k1); (split; [apply Permutation_app_comm|by constructor]).
    - split; intros ks.
      + intros (k1&k3&->&(k11&k12&->&H11&H12)%prods_add_inv&H3)%prods_add_inv. exists (k11 ++ (k12 ++ k3)).
        split; [by rewrite app_assoc|by repeat constructor].
      + intros (k1&k3&->&H1&(k31&k32&->&H31&H32)%prods_add_inv)%prods_add_inv. exists ((k1 ++ k31) ++ k32).
        split; [by rewrite app_assoc|by repeat constructor].
    - split; intros ks.
      + intros (k1&k3&->&[-> _]%prods_num_inv&H3)%prods_add_inv. by exists k3.
      + intros Hk. exists ([] ++ ks). split; [done|]. constructor; [constructor|done].
    - split; intros ks Hk; exists ks; (split; [done|by apply prods_mul_comm]).
  Qed.

  (** ** The error *)
  Definition off (n : nat) (S M v : R) : Prop := Rabs (v - S) <= (w n - 1) * M + INR n * tiny * w n.
  Lemma off_add m n Sa Sb Ma Mb va vb v : (0 < m)%nat -> (0 < n)%nat -> Rabs Sa <= Ma -> Rabs Sb <= Mb ->
    off m Sa Ma va -> off n Sb Mb vb -> Rabs (v - (va + vb)) <= uro * Rabs (va + vb) -> off (m + n) (Sa + Sb) (Ma + Mb) v.
  Proof.
    unfold off. intros Hm Hn HSa HSb Ha Hb Hv. pose proof uro_pos as Hu. pose proof tiny_pos as Ht.
    assert (W1 : (1 + uro) * w m <= w (m + n)) by (change ((1 + uro) * w m) with (w (S m)); apply w_mono; lia).
    assert (W2 : (1 + uro) * w n <= w (m + n)) by (change ((1 + uro) * w n) with (w (S n)); apply w_mono; lia).
    rewrite plus_INR. pose proof (pos_INR m) as Pm. pose proof (pos_INR n) as Pn. pose proof (w_ge m) as G1. pose proof (w_ge n) as G2.
    set (W := w (m + n)) in *. set (Wm := w m) in *. set (Wn := w n) in *. set (im := INR m) in *. set (inn := INR n) in *.
    clearbody W Wm Wn im inn. pose proof (Rabs_pos Sa) as P1. pose proof (Rabs_pos Sb) as P2.
    set (ea := Rabs (va - Sa)) in *. set (eb := Rabs (vb - Sb)) in *.
    assert (H1 : Rabs (va + vb) <= ea + eb + Ma + Mb).
    { replace (va + vb) with ((va - Sa) + (vb - Sb) + (Sa + Sb)) by lra.
      pose proof (Rabs_triang (va - Sa + (vb - Sb)) (Sa + Sb)). pose proof (Rabs_triang (va - Sa) (vb - Sb)). pose proof (Rabs_triang Sa Sb). unfold ea, eb. lra. }
    assert (H2 : Rabs (v - (Sa + Sb)) <= Rabs (v - (va + vb)) + ea + eb).
    { replace (v - (Sa + Sb)) with ((v - (va + vb)) + ((va - Sa) + (vb - Sb))) by lra.
      pose proof (Rabs_triang (v - (va + vb)) (va - Sa + (vb - Sb))). pose proof (Rabs_triang (va - Sa) (vb - Sb)). unfold ea, eb. lra. }
    assert (H3 : uro * Rabs (va + vb) <= uro * (ea + eb + Ma + Mb)) by (apply Rmult_le_compat_l; lra).
    assert (Qa : (1 + uro) * ea <= (W - 1 - uro) * Ma + im * tiny * W).
    { apply Rle_trans with ((1 + uro) * ((Wm - 1) * Ma + im * tiny * Wm)); [apply Rmult_le_compat_l; lra|].
      assert (((1 + uro) * Wm) * Ma <= W * Ma) by (apply Rmult_le_compat_r; lra).
      assert ((im * tiny) * ((1 + uro) * Wm) <= (im * tiny) * W) by (apply Rmult_le_compat_l; [apply Rmult_le_pos; lra|lra]). lra. }
    assert (Qb : (1 + uro) * eb <= (W - 1 - uro) * Mb + inn * tiny * W).
    { apply Rle_trans with ((1 + uro) * ((Wn - 1) * Mb + inn * tiny * Wn)); [apply Rmult_le_compat_l; lra|].
      assert (((1 + uro) * Wn) * Mb <= W * Mb) by (apply Rmult_le_compat_r; lra).
      assert ((inn * tiny) * ((1 + uro) * Wn) <= (inn * tiny) * W) by (apply Rmult_le_compat_l; [apply Rmult_le_pos; lra|lra]). lra. }
    lra.
  Qed.
  Lemma off_fma m Sa Ma p va v : Rabs Sa <= Ma -> off m Sa Ma va -> Rabs (v - (p + va)) <= uro * Rabs (p + va) + tiny ->
    off (m + 1) (Sa + p) (Ma + Rabs p) v.
  Proof.
    unfold off. intros HSa Ha Hv. pose proof uro_pos as Hu. pose proof tiny_pos as Ht.
    assert (W1 : (1 + uro) * w m <= w (m + 1)) by (change ((1 + uro) * w m) with (w (S m)); apply w_mono; lia).
    rewrite plus_INR. pose proof (pos_INR m) as Pm. pose proof (w_ge m) as G1.
    set (W := w (m + 1)) in *. set (Wm := w m) in *. set (im := INR m) in *. change (INR 1) with 1.
    clearbody W Wm im. pose proof (Rabs_pos Sa) as P1. pose proof (Rabs_pos p) as P2.
    set (ea := Rabs (va - Sa)) in *.
    assert (H1 : Rabs (p + va) <= ea + Ma + Rabs p).
    { replace (p + va) with ((va - Sa) + Sa + p) by lra.
      pose proof (Rabs_triang (va - Sa + Sa) p). pose proof (Rabs_triang (va - Sa) Sa). unfold ea. lra. }
    assert (H2 : Rabs (v - (Sa + p)) <= Rabs (v - (p + va)) + ea).
    { replace (v - (Sa + p)) with ((v - (p + va)) + (va - Sa)) by lra. apply Rabs_triang. }
    assert (H3 : uro * Rabs (p + va) <= uro * (ea + Ma + Rabs p)) by (apply Rmult_le_compat_l; lra).
    assert (Qa : (1 + uro) * ea <= (W - 1 - uro) * Ma + im * tiny * W).
    { apply Rle_trans with ((1 + uro) * ((Wm - 1) * Ma + im * tiny * Wm)); [apply Rmult_le_compat_l; lra|].
      assert (((1 + uro) * Wm) * Ma <= W * Ma) by (apply Rmult_le_compat_r; lra).
      assert ((im * tiny) * ((1 + uro) * Wm) <= (im * tiny) * W) by (apply Rmult_le_compat_l; [apply Rmult_le_pos; lra|lra]). lra. }
    assert (HWu : 1 + uro <= W) by nra.
    assert (uro * Rabs p <= (W - 1) * Rabs p) by (apply Rmult_le_compat_r; lra).
    assert (tiny <= tiny * W) by nra. lra.
  Qed.

  Definition within (ks : list nat) (v : binary64) : Prop :=
    (ks = [] -> val64 v = 0) /\ off (length ks) (rsum g ks) (rsum (fun k => Rabs (g k)) ks) (val64 v).
  Lemma within_perm ks ls v : ks ≡ₚ ls -> within ks v -> within ls v.
  Proof.
    intros Hp [H1 H2]. split; [intros ->; apply H1; by apply Permutation_nil|].
    assert (E : forall f, rsum f ks = rsum f ls) by (intros f; by apply rsum_perm).
    unfold off in *. rewrite <- !E. by rewrite <- Hp.
  Qed.
  Lemma within_nil v : val64 v = 0 -> within [] v.
  Proof. intros Hv. split; [done|]. unfold off. cbn. rewrite Hv, Rminus_0_r, Rabs_R0. lra. Qed.
  Lemma within_add ks ls a b v : within ks a -> within ls b -> val64 v = rnd64 (val64 a + val64 b) -> within (ks ++ ls) v.
  Proof.
    intros [H1 H2] [H3 H4] Hv. destruct ks as [|k ks].
    - cbn [Datatypes.app]. rewrite (H1 eq_refl), Rplus_0_l, rnd64_id in Hv by apply val64_format. split; [|by rewrite Hv].
      intros E. rewrite Hv. by apply H3.
    - destruct ls as [|l ls].
      + rewrite app_nil_r. rewrite (H3 eq_refl), Rplus_0_r, rnd64_id in Hv by apply val64_format. split; [done|by rewrite Hv].
      + split; [done|]. rewrite app_length, !rsum_app. apply off_add with (va := val64 a) (vb := val64 b); try done; try (cbn; lia); try apply rsum_abs.
        rewrite Hv. apply rnd_plus_err.
  Qed.
  Lemma within_fma ks ls p a v : within ks a -> (length ls <= 1)%nat -> p = rsum g ls -> Rabs p = rsum (fun k => Rabs (g k)) ls ->
    val64 v = rnd64 (p + val64 a) -> within (ks ++ ls) v.
  Proof.
    intros [H1 H2] Hl Hp Hpa Hv. destruct ls as [|l ls].
    - rewrite app_nil_r. cbn in Hp. rewrite Hp, Rplus_0_l, rnd64_id in Hv by apply val64_format. split; rewrite Hv; done.
    - split; [by destruct ks|]. rewrite app_length. replace (length (l :: ls)) with 1%nat by (cbn in *; lia).
      rewrite !rsum_app, <- Hp, <- Hpa. apply off_fma with (va := val64 a); [apply rsum_abs|done|]. rewrite Hv. apply rnd_mult_err.
  Qed.
  Lemma within_mul ls p v : (length ls <= 1)%nat -> p = rsum g ls -> Rabs p = rsum (fun k => Rabs (g k)) ls ->
    val64 v = rnd64 p -> within ls v.
  Proof.
    intros Hl Hp Hpa Hv. apply (within_fma [] ls p nzero v); [by apply within_nil|done..|]. change (val64 nzero) with 0. by rewrite Rplus_0_r.
  Qed.

  Lemma prods_err e ks : prods e ks -> forall v, compiled e v -> finite64 v = true -> within ks v.
  Proof.
    induction 1 as [| |k|k|a b ks ls Ha IHa Hb IHb]; intros v Hv Hf.
    - apply compiled_leaf in Hv as ->. by apply within_nil.
    - apply compiled_product in Hv as ->. by apply within_nil.
    - apply compiled_product in Hv as ->. destruct (mul_value _ _ Hf) as (_&_&Hv). eapply within_mul; [cbn; lia| | |exact Hv]; cbn; unfold g; lra.
    - apply compiled_product in Hv as ->. destruct (mul_value _ _ Hf) as (_&_&Hv). rewrite Rmult_comm in Hv.
      eapply within_mul; [cbn; lia| | |exact Hv]; cbn; unfold g; lra.
    - inversion Hv as [|? ? u t Hu Ht| |c a' b' z p q Hz Hp Hq|c a' b' z p q Hz Hp Hq]; subst.
      + destruct (add_value _ _ Hf) as (Hfu&Hft&E). eapply within_add; [by apply IHa|by apply IHb|done].
      + destruct (fma_value _ _ _ Hf) as (_&_&Hfz&E). destruct (prods_value _ _ _ Hb) as (p'&q'&->&->&E1&E2&Hl).
        apply compiled_leaf in Hp as ->. apply compiled_leaf in Hq as ->. eapply within_fma; [by apply IHa|done|exact E1|exact E2|done].
      + destruct (fma_value _ _ _ Hf) as (_&_&Hfz&E). destruct (prods_value _ _ _ Ha) as (p'&q'&->&->&E1&E2&Hl).
        apply compiled_leaf in Hp as ->. apply compiled_leaf in Hq as ->. eapply within_perm; [apply Permutation_app_comm|].
        eapply within_fma; [by apply IHb|done|exact E1|exact E2|done].
  Qed.

  (** ** No overflow *)
  Section Bounded.
    Hypothesis Hx : forall k, finite64 (x k) = true.
    Hypothesis Hy : forall k, finite64 (y k) = true.
    Variable P : binary64.
    Hypothesis HP0 : 0 <= val64 P.
    Hypothesis HP : forall k, Rabs (g k) <= val64 P.
    Variable N : nat.
    Hypothesis HN : w N * (INR N * val64 P) < bpow radix2 1024.
    Definition inside (ks : list nat) (v : binary64) : Prop :=
      finite64 v = true /\ Rabs (val64 v) <= w (length ks) * (INR (length ks) * val64 P).
    Lemma room m : (m <= N)%nat -> w m * (INR m * val64 P) < bpow radix2 1024.
    Proof.
      intros Hm. eapply Rle_lt_trans; [|exact HN]. pose proof (w_ge m). pose proof (pos_INR m). apply le_INR in Hm as Hm'.
      apply Rmult_le_compat; [lra|apply Rmult_le_pos; lra|by apply w_mono|by apply Rmult_le_compat_r].
    Qed.
    Lemma inside_nil (v : binary64) : finite64 v = true -> val64 v = 0 -> inside [] v.
    Proof. intros Hf Hv. split; [done|]. rewrite Hv, Rabs_R0. cbn. lra. Qed.
    Lemma inside_zero ks v : inside ks v -> ks = [] -> val64 v = 0.
    Proof. intros [_ H] ->. cbn in H. rewrite Rmult_0_l, Rmult_0_r in H. pose proof (Rabs_pos (val64 v)). destruct (Req_dec (val64 v) 0) as [E|E]; [done|]. apply Rabs_pos_lt in E. lra. Qed.
    Lemma val_lt (v : binary64) : Rabs (val64 v) < bpow radix2 1024.
    Proof. apply val64_lt. Qed.
    Lemma inside_add ks ls a b : (length (ks ++ ls) <= N)%nat -> inside ks a -> inside ls b -> inside (ks ++ ls) (nadd a b).
    Proof.
      intros Hl Ha Hb. pose proof Ha as [Hfa Ba]. pose proof Hb as [Hfb Bb].
      assert (Hgo : Rabs (rnd64 (val64 a + val64 b)) <= w (length (ks ++ ls)) * (INR (length (ks ++ ls)) * val64 P)).
      { destruct ks as [|k ks]; [|destruct ls as [|l ls]].
        - rewrite (inside_zero _ _ Ha eq_refl), Rplus_0_l, rnd64_id by apply val64_format. exact Bb.
        - rewrite app_nil_r, (inside_zero _ _ Hb eq_refl), Rplus_0_r, rnd64_id by apply val64_format. exact Ba.
        - pose proof (rnd_plus_err a b) as He. rewrite app_length, plus_INR. set (m := length (k :: ks)) in *. set (n := length (l :: ls)) in *.
          assert (W1 : (1 + uro) * w m <= w (m + n)) by (change ((1 + uro) * w m) with (w (S m)); apply w_mono; unfold n; cbn; lia).
          assert (W2 : (1 + uro) * w n <= w (m + n)) by (change ((1 + uro) * w n) with (w (S n)); apply w_mono; unfold m; cbn; lia).
          pose proof (Rmult_le_pos _ _ (pos_INR m) HP0) as Pm. pose proof (Rmult_le_pos _ _ (pos_INR n) HP0) as Pn. pose proof uro_pos.
          pose proof (Rabs_triang (val64 a) (val64 b)) as T1. pose proof (Rabs_pos (val64 a + val64 b)) as T0.
          assert (T2 : Rabs (rnd64 (val64 a + val64 b)) <= (1 + uro) * Rabs (val64 a + val64 b)).
          { replace (rnd64 (val64 a + val64 b)) with ((rnd64 (val64 a + val64 b) - (val64 a + val64 b)) + (val64 a + val64 b)) by lra.
            eapply Rle_trans; [apply Rabs_triang|]. lra. }
          eapply Rle_trans; [exact T2|]. set (pm := INR m * val64 P) in *. set (pn := INR n * val64 P) in *.
          apply Rle_trans with ((1 + uro) * (w m * pm + w n * pn)); [apply Rmult_le_compat_l; lra|].
          pose proof (Rmult_le_compat_r _ _ _ Pm W1). pose proof (Rmult_le_compat_r _ _ _ Pn W2).
          replace (w (m + n) * ((INR m + INR n) * val64 P)) with (w (m + n) * pm + w (m + n) * pn) by (unfold pm, pn; ring). lra. }
      pose proof (room _ Hl) as Hr.
      assert (Hf : finite64 (nadd a b) = true) by (apply add_finite; [done|done|lra]).
      split; [done|]. destruct (add_value _ _ Hf) as (_&_&->). exact Hgo.
    Qed.
    Lemma inside_fma ks ls p q z : (length (ks ++ ls) <= N)%nat -> (length ls <= 1)%nat -> inside ks z -> finite64 p = true -> finite64 q = true ->
      val64 p * val64 q = rsum g ls -> inside (ks ++ ls) (fma64 p q z).
    Proof.
      intros Hl Hl1 Hz Hfp Hfq Hpq. pose proof Hz as [Hfz Bz].
      assert (Hgo : Rabs (rnd64 (val64 p * val64 q + val64 z)) <= w (length (ks ++ ls)) * (INR (length (ks ++ ls)) * val64 P)).
      { destruct ls as [|l ls].
        - cbn in Hpq. rewrite app_nil_r, Hpq, Rplus_0_l, rnd64_id by apply val64_format. exact Bz.
        - destruct ls; [|cbn in Hl1; lia]. cbn in Hpq. rewrite Rplus_0_r in Hpq.
          assert (T1 : Rabs (val64 p * val64 q + val64 z) <= Rabs (val64 z) + val64 P).
          { eapply Rle_trans; [apply Rabs_triang|]. pose proof (HP l). rewrite Hpq. lra. }
          eapply Rle_trans; [apply (rnd_abs_le _ _ T1)|]. eapply Rle_trans; [by apply rnd_succ|].
          rewrite app_length, plus_INR. cbn [length]. change (INR 1) with 1. set (m := length ks) in *.
          assert (W1 : (1 + uro) * w m <= w (m + 1)) by (change ((1 + uro) * w m) with (w (S m)); apply w_mono; lia).
          pose proof (Rmult_le_pos _ _ (pos_INR m) HP0) as Pm. pose proof uro_pos. pose proof (w_ge m).
          apply Rle_trans with ((1 + uro) * (w m * (INR m * val64 P) + val64 P)); [apply Rmult_le_compat_l; lra|].
          assert (W2 : 1 + uro <= w (m + 1)) by nra.
          pose proof (Rmult_le_compat_r _ _ _ Pm W1) as Q1. pose proof (Rmult_le_compat_r _ _ _ HP0 W2) as Q2.
          replace (w (m + 1) * ((INR m + 1) * val64 P)) with (w (m + 1) * (INR m * val64 P) + w (m + 1) * val64 P) by ring.
          replace ((1 + uro) * (w m * (INR m * val64 P) + val64 P)) with ((1 + uro) * w m * (INR m * val64 P) + (1 + uro) * val64 P) by ring.
          exact (Rplus_le_compat _ _ _ _ Q1 Q2). }
      pose proof (room _ Hl) as Hr.
      assert (Hf : finite64 (fma64 p q z) = true) by (apply fma_finite; [done..|lra]).
      split; [done|]. destruct (fma_value _ _ _ Hf) as (_&_&_&->). exact Hgo.
    Qed.
    Lemma inside_mul k (p q : binary64) : (1 <= N)%nat -> finite64 p = true -> finite64 q = true -> val64 p * val64 q = g k -> inside [k] (nmul p q).
    Proof.
      intros HN1 Hfp Hfq Hpq.
      assert (Hgo : Rabs (rnd64 (val64 p * val64 q)) <= w 1 * (INR 1 * val64 P)).
      { eapply Rle_trans; [apply (rnd_abs_le _ (val64 P)); rewrite Hpq; apply HP|]. rewrite rnd64_id by apply val64_format.
        change (INR 1) with 1. pose proof (w_ge 1). nra. }
      pose proof (room _ HN1) as Hr.
      assert (Hf : finite64 (nmul p q) = true) by (apply mul_finite; [done..|lra]).
      split; [done|]. destruct (mul_value _ _ Hf) as (_&_&->). exact Hgo.
    Qed.
    Lemma prods_leaves a b ks : prods (TMul a b) ks -> exists p q, a = TNum p /\ b = TNum q /\ finite64 p = true /\ finite64 q = true.
    Proof.
      intros (p&q&->&->&[(->&->&_)|(k&_&[[-> ->]|[-> ->]])])%prods_mul_inv; eexists _, _; (split; [reflexivity|]); (split; [reflexivity|]); done.
    Qed.
    Lemma prods_finite e ks : prods e ks -> (length ks <= N)%nat -> forall v, compiled e v -> inside ks v.
    Proof.
      induction 1 as [| |k|k|a b ks ls Ha IHa Hb IHb]; intros Hl v Hv.
      - apply compiled_leaf in Hv as ->. by apply inside_nil.
      - apply compiled_product in Hv as ->. by apply inside_nil.
      - apply compiled_product in Hv as ->. by apply inside_mul.
      - apply compiled_product in Hv as ->. apply inside_mul; [done..|]. unfold g. lra.
      - assert (length ks <= N /\ length ls <= N)%nat as [L1 L2] by (rewrite app_length in Hl; lia).
        inversion Hv as [|? ? u t Hu Ht| |c a' b' z p q Hz Hp Hq|c a' b' z p q Hz Hp Hq]; subst.
        + apply inside_add; [done|by apply IHa|by apply IHb].
        + destruct (prods_value _ _ _ Hb) as (p'&q'&->&->&E1&E2&Hl1). destruct (prods_leaves _ _ _ Hb) as (?&?&[= <-]&[= <-]&Hfp&Hfq).
          apply compiled_leaf in Hp as ->. apply compiled_leaf in Hq as ->. apply inside_fma; try done. by apply IHa.
        + destruct (prods_value _ _ _ Ha) as (p'&q'&->&->&E1&E2&Hl1). destruct (prods_leaves _ _ _ Ha) as (?&?&[= <-]&[= <-]&Hfp&Hfq).
          apply compiled_leaf in Hp as ->. apply compiled_leaf in Hq as ->.
          assert (Hi : inside (ls ++ ks) (fma64 p' q' z)) by (apply inside_fma; try done; [by rewrite app_length, Nat.add_comm, <- app_length|by apply IHb]).
          unfold inside in *. by rewrite (Permutation_app_comm ks ls).
    Qed.

  End Bounded.

  Section Exactly.
    Hypothesis Hx : forall k, finite64 (x k) = true.
    Hypothesis Hy : forall k, finite64 (y k) = true.
    Definition double_sum (ks : list nat) : Prop := exists d : binary64, val64 d = rsum g ks.
    Definition exactly (ks : list nat) (v : binary64) : Prop := finite64 v = true /\ val64 v = rsum g ks.
    Lemma double_id ks r : double_sum ks -> r = rsum g ks -> rnd64 r = r /\ Rabs (rnd64 r) < bpow radix2 1024.
    Proof. intros [d Hd] ->. rewrite <- Hd, rnd64_id by apply val64_format. split; [done|apply val64_lt]. Qed.
    Lemma prods_exact e ks : prods e ks -> (forall ls, ls ⊆+ ks -> double_sum ls) -> forall v, compiled e v -> exactly ks v.
    Proof.
      induction 1 as [| |k|k|a b ks ls Ha IHa Hb IHb]; intros Hd v Hv.
      - apply compiled_leaf in Hv as ->. done.
      - apply compiled_product in Hv as ->. done.
      - apply compiled_product in Hv as ->. destruct (double_id [k] (val64 (x k) * val64 (y k)) (Hd _ (reflexivity _))) as [E1 E2]; [cbn; unfold g; lra|].
        assert (Hf : finite64 (nmul (x k) (y k)) = true) by (apply mul_finite; done). split; [done|].
        destruct (mul_value _ _ Hf) as (_&_&->). rewrite E1. cbn. unfold g. lra.
      - apply compiled_product in Hv as ->. destruct (double_id [k] (val64 (y k) * val64 (x k)) (Hd _ (reflexivity _))) as [E1 E2]; [cbn; unfold g; lra|].
        assert (Hf : finite64 (nmul (y k) (x k)) = true) by (apply mul_finite; done). split; [done|].
        destruct (mul_value _ _ Hf) as (_&_&->). rewrite E1. cbn. unfold g. lra.
      - assert (Da : forall l, l ⊆+ ks -> double_sum l) by (intros l Hl; apply Hd; etrans; [exact Hl|]; apply submseteq_inserts_r; done).
        assert (Db : forall l, l ⊆+ ls -> double_sum l) by (intros l Hl; apply Hd; etrans; [exact Hl|]; apply submseteq_inserts_l; done).
        assert (D : double_sum (ks ++ ls)) by (by apply Hd).
        inversion Hv as [|? ? u t Hu Ht| |c a' b' z p q Hz Hp Hq|c a' b' z p q Hz Hp Hq]; subst.
        + destruct (IHa Da _ Hu) as [Fu Vu]. destruct (IHb Db _ Ht) as [Ft Vt].
          destruct (double_id _ (val64 u + val64 t) D) as [E1 E2]; [by rewrite rsum_app, Vu, Vt|].
          assert (Hf : finite64 (nadd u t) = true) by (apply add_finite; done). split; [done|].
          destruct (add_value _ _ Hf) as (_&_&->). by rewrite E1, rsum_app, Vu, Vt.
        + destruct (prods_value _ _ _ Hb) as (p'&q'&->&->&V1&_&_). destruct (prods_leaves Hx Hy _ _ _ Hb) as (?&?&[= <-]&[= <-]&Hfp&Hfq).
          apply compiled_leaf in Hp as ->. apply compiled_leaf in Hq as ->. destruct (IHa Da _ Hz) as [Fz Vz].
          destruct (double_id _ (val64 p' * val64 q' + val64 z) D) as [E1 E2]; [rewrite rsum_app; lra|].
          assert (Hf : finite64 (fma64 p' q' z) = true) by (apply fma_finite; done). split; [done|].
          destruct (fma_value _ _ _ Hf) as (_&_&_&->). rewrite E1, rsum_app. lra.
        + destruct (prods_value _ _ _ Ha) as (p'&q'&->&->&V1&_&_). destruct (prods_leaves Hx Hy _ _ _ Ha) as (?&?&[= <-]&[= <-]&Hfp&Hfq).
          apply compiled_leaf in Hp as ->. apply compiled_leaf in Hq as ->. destruct (IHb Db _ Hz) as [Fz Vz].
          destruct (double_id _ (val64 p' * val64 q' + val64 z) D) as [E1 E2]; [rewrite rsum_app; lra|].
          assert (Hf : finite64 (fma64 p' q' z) = true) by (apply fma_finite; done). split; [done|].
          destruct (fma_value _ _ _ Hf) as (_&_&_&->). rewrite E1, rsum_app. lra.
    Qed.
  End Exactly.
End Sums.
