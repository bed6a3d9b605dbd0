(** Every compilation of every suitable variant is accurate. *)
From Coq Require Import ZArith Reals Psatz.
From Flocq Require Import Core IEEE754.Binary IEEE754.Bits.
From Verif Require Import Conc ConcFacts Base Num Spec SpecTiled Tools MCeil PCeil MDouble PDouble SpecContract MContract SpecApp SpecRound PRound PRound2 PContract PContract2 PRecursive MApp.
Local Open Scope R_scope.

(** ** From terms to sums *)
Lemma dot_snoc {T} `{NumOps T} (f : nat -> T) ks k : dot f (ks ++ [k]) = nadd (dot f ks) (f k).
Proof. unfold dot. by rewrite foldl_app. Qed.
Lemma dot_no_product (f : nat -> term) ks a b : dot f ks <> TMul a b.
Proof. destruct ks as [|k ks _] using rev_ind; [done|]. by rewrite dot_snoc. Qed.
Lemma compiled_leaf x v : compiled (TNum x) v -> v = x.
Proof. by inversion 1. Qed.
Lemma compiled_product x y v : compiled (TMul (TNum x) (TNum y)) v -> v = nmul x y.
Proof. inversion 1 as [| |a b x' y' Hx Hy| |]; subst. by rewrite (compiled_leaf _ _ Hx), (compiled_leaf _ _ Hy). Qed.
Section Terms.
  Context (x y : nat -> binary64).
  Let F (k : nat) : term := TMul (TNum (x k)) (TNum (y k)).
  Lemma compiled_msum ks v : compiled (dot F ks) v -> msum x y ks v.
  Proof.
    revert v. induction ks as [|k ks IH] using rev_ind; intros v Hv; [by rewrite (compiled_leaf _ _ Hv); constructor|].
    rewrite dot_snoc in Hv. inversion Hv as [|a b s p Hs Hp| |a b c z x' y' Hz Hx Hy Ea|c a b z x' y' Hz Hx Hy Ea].
    - apply (msum_snoc _ _ _ _ s); [by apply IH|]. left. by rewrite (compiled_product _ _ _ Hp).
    - apply (msum_snoc _ _ _ _ z); [by apply IH|]. right. by rewrite (compiled_leaf _ _ Hx), (compiled_leaf _ _ Hy).
    - exfalso. by eapply dot_no_product.
  Qed.
  Lemma compiled_csum (ch : nat -> list nat) qs v : compiled (dot (fun q => dot F (ch q)) qs) v -> csum (fun q => msum x y (ch q)) qs v.
  Proof.
    revert v. induction qs as [|q qs IH] using rev_ind; intros v Hv; [by rewrite (compiled_leaf _ _ Hv); constructor|].
    rewrite dot_snoc in Hv. inversion Hv as [|a b s p Hs Hp| |a b c z x' y' Hz Hx Hy Ea|c a b z x' y' Hz Hx Hy Ea].
    - constructor; [by apply IH|]. by apply compiled_msum.
    - exfalso. by eapply dot_no_product.
    - exfalso. by eapply dot_no_product.
  Qed.
End Terms.
Lemma csum_dot c qs v : NoDup qs -> csum c qs v -> exists f, v = dot f qs /\ forall q, q ∈ qs -> c q (f q).
Proof.
  intros Hnd. induction 1 as [|qs q s t Hs IH Hc]; [exists (fun _ => nzero); split; [done|]; by intros q Hq%elem_of_nil|].
  apply NoDup_app in Hnd as (Hnd&Hq&_). destruct (IH Hnd) as (f&->&Hf).
  assert (Hq' : q ∉ qs). { intros Hin. apply (Hq q Hin). set_solver. }
  exists (fun k => if decide (k = q) then t else f k). split.
  - rewrite dot_snoc, decide_True by done. f_equal. apply dot_ext. intros k Hk. rewrite decide_False; [done|]. by intros ->.
  - intros k [Hk|Hk%elem_of_list_singleton]%elem_of_app; [|by subst; rewrite decide_True]. rewrite decide_False; [by apply Hf|]. by intros ->.
Qed.
Lemma dot64_bounded2 (f : nat -> binary64) (d : nat -> R) ks :
  (forall k, k ∈ ks -> finite64 (f k) = true /\ Rabs (val64 (f k)) <= d k) -> w (cnt f ks) <= 2 -> rsum d ks <= 1048576 ->
  finite64 (dot f ks) = true.
Proof.
  intros Hd Hw Hs. pose proof (w_ge (cnt f ks)) as Hw1.
  assert (H1 : rsum (fun k => Rabs (val64 (f k))) ks <= rsum d ks) by (apply rsum_le; intros k Hk; by apply Hd).
  assert (H0 : 0 <= rsum (fun k => Rabs (val64 (f k))) ks) by (apply rsum_nonneg; intros; apply Rabs_pos).
  apply dot64_finite; [intros k Hk; by apply Hd|]. pose proof big_bpow. apply Rle_lt_trans with (2 * 1048576); [apply Rmult_le_compat; lra|lra].
Qed.
Lemma w_two n : (Z.of_nat n <= 1048576)%Z -> w n <= 2.
Proof.
  intros Hn. assert (Hi : 0 <= INR n <= 1048576) by (split; [apply pos_INR|rewrite INR_IZR_INZ; apply IZR_le; lia]).
  assert (Hu : uro = / 9007199254740992) by (unfold uro; rewrite (bp 53); reflexivity). pose proof uro_pos as Hp.
  assert (H1 : 0 <= INR n * uro) by (apply Rmult_le_pos; lra).
  assert (H2 : INR n * uro <= 1048576 * uro) by (apply Rmult_le_compat_r; lra).
  assert (H3 : 1048576 * uro <= 1 / 2) by (rewrite Hu; lra).
  pose proof (w_upper n ltac:(lra)) as Hw. assert (INR n * uro * (INR n * uro) <= 1 / 2 * (1 / 2)) by (apply Rmult_le_compat; lra).
  set (W := w n) in *. clearbody W. lra.
Qed.
Lemma zero_nz (x : binary64) : finite64 x = true -> val64 x = 0 -> nz x = false.
Proof.
  destruct x as [s|s|s p H|s m e H]; try done. intros _ Hv. exfalso. revert Hv. cbn. apply F2R_neq_0. by destruct s.
Qed.

(** ** The orders *)
Section Shapes.
  Context (N : nat) (x y : nat -> binary64).
  Hypothesis Hx0 : forall k, (N <= k)%nat -> x k = nzero.
  Hypothesis Hy0 : forall k, (N <= k)%nat -> y k = nzero.
  Let g (k : nat) : R := val64 (x k) * val64 (y k).
  Let c' (k : nat) : R := if decide (k < N)%nat then 1 else 0.
  Lemma dead k : (N <= k)%nat -> val64 (x k) * val64 (y k) = 0.
  Proof. intros Hk. rewrite Hx0 by done. change (val64 nzero) with 0. apply Rmult_0_l. Qed.
  Lemma c_sum : rsum c' (seq 0 N) = INR N.
  Proof. exact (sum_c N). Qed.
  Lemma c_nonneg ks : 0 <= rsum c' ks.
  Proof. clear. apply rsum_nonneg. intros k _. unfold c'. destruct (decide _); lra. Qed.
  Lemma straight_msum v : msum x y (seq 0 N) v -> finite64 v = true -> close_to N x y (val64 v).
  Proof.
    intros Hm Hf. pose proof (msum_err x y N dead _ _ Hm Hf) as He.
    assert (HL : (live N (seq 0 N) <= N)%nat) by apply (live_N N _ (NoDup_seq 0 N)).
    apply (close_weaken N x y _ (1 + live N (seq 0 N))); [lia|]. fold c' in He. rewrite c_sum in He. exact He.
  Qed.
  Context (b Q : nat) (Hb : (0 < b)%nat) (HQ : (N <= Q * b)%nat).
  Let ch (q : nat) : list nat := seq (q * b) b.
  Lemma live_chunk q : (live N (ch q) <= b `min` N)%nat.
  Proof. apply Nat.min_glb; [etransitivity; [apply live_len|]; unfold ch; by rewrite seq_length|apply live_N, NoDup_seq]. Qed.
  Lemma chunk_dead q v : msum x y (ch q) v -> (cdiv N b <= q)%nat -> finite64 v = true -> nz v = false.
  Proof.
    intros Hm Hq Hf. apply zero_nz; [done|].
    assert (Hall : forall k, k ∈ ch q -> (N <= k)%nat).
    { intros k Hk%elem_of_seq. unfold cdiv in Hq. pose proof (Nat.div_mod (N + (b - 1)) b ltac:(lia)).
      pose proof (Nat.mod_upper_bound (N + (b - 1)) b ltac:(lia)). nia. }
    revert Hf Hall. clear -Hm Hx0. induction Hm as [|ks k s s' Hs IH Hm]; intros Hf Hall; [done|].
    destruct (muladd_err _ _ _ _ Hm Hf) as (Hsf&_). rewrite (muladd_zero _ _ _ _ Hm Hf); [apply IH; [done|set_solver]|].
    rewrite Hx0 by (apply Hall; set_solver). change (val64 nzero) with 0. apply Rmult_0_l.
  Qed.
  Lemma outer_cnt f : (forall q, q ∈ seq 0 Q -> msum x y (ch q) (f q)) -> (forall q, q ∈ seq 0 Q -> finite64 (f q) = true) ->
    (cnt f (seq 0 Q) <= cdiv N b)%nat.
  Proof. intros Hm Hf. apply cnt_le_below; [apply NoDup_seq|]. intros q Hq Hle. by apply (chunk_dead q); [apply Hm|done|apply Hf]. Qed.
  Lemma chunked_msum v : csum (fun q => msum x y (ch q)) (seq 0 Q) v -> finite64 v = true -> close_to N x y (val64 v).
  Proof.
    intros (f&->&Hm)%csum_dot Hf; [|apply NoDup_seq]. destruct (dot64_err _ _ Hf) as [Hall _].
    apply (close_weaken N x y _ (1 + b `min` N + cdiv N b)); [by apply (exponent N b Q)|].
    assert (Hpad : rsum g (seq 0 (Q * b)) = rsum g (seq 0 N)) by (apply rsum_pad; [done|]; intros k Hk; apply dead; lia).
    assert (Hpada : rsum (fun k => Rabs (g k)) (seq 0 (Q * b)) = rsum (fun k => Rabs (g k)) (seq 0 N)).
    { apply rsum_pad; [done|]. intros k Hk. unfold g. rewrite dead by lia. apply Rabs_R0. }
    assert (Hpadc : rsum c' (seq 0 (Q * b)) = INR N).
    { rewrite <- c_sum. apply rsum_pad; [done|]. intros k Hk. unfold c'. rewrite decide_False by lia. done. }
    fold g. rewrite <- Hpad. change (fun k => Rabs (val64 (x k) * val64 (y k))) with (fun k => Rabs (g k)). rewrite <- Hpada, <- Hpadc. rewrite <- !rsum_chunks.
    apply dot64_approx; [by apply outer_cnt| |done].
    intros q Hq Hfq. split; [|split; [apply rsum_abs|apply c_nonneg]].
    pose proof (msum_err x y N dead _ _ (Hm q Hq) Hfq) as He. eapply Rle_trans; [exact He|].
    pose proof (w_mono (1 + live N (ch q)) (1 + b `min` N) ltac:(pose proof (live_chunk q); lia)) as Hw.
    assert (0 <= rsum (fun k => Rabs (g k)) (ch q)) by (apply rsum_nonneg; intros; apply Rabs_pos).
    pose proof (c_nonneg (ch q)). pose proof tiny_pos.
    apply Rplus_le_compat; [apply Rmult_le_compat_r; [done|]; apply Rplus_le_compat_r; exact Hw|].
    apply Rmult_le_compat_l; [|exact Hw]. apply Rmult_le_pos; [assumption|]. apply Rlt_le; assumption.
  Qed.
  Hypothesis Hx : forall k, (k < N)%nat -> finite64 (x k) = true.
  Hypothesis Hy : forall k, (k < N)%nat -> finite64 (y k) = true.
  Variable p : binary64.
  Hypothesis Hp0 : 0 <= val64 p.
  Hypothesis Hp : forall k, (k < N)%nat -> Rabs (val64 (x k) * val64 (y k)) <= val64 p.
  Hypothesis HN : (Z.of_nat N <= 524288)%Z.
  Hypothesis HNp : INR N * val64 p <= 524288.
  Lemma xu k : finite64 (x k) = true.
  Proof. clear b Q Hb HQ ch HNp. destruct (decide (k < N)%nat) as [Hk|Hk]; [by apply Hx|]. by rewrite Hx0 by (clear -Hk; lia). Qed.
  Lemma yu k : finite64 (y k) = true.
  Proof. clear b Q Hb HQ ch HNp. destruct (decide (k < N)%nat) as [Hk|Hk]; [by apply Hy|]. by rewrite Hy0 by (clear -Hk; lia). Qed.
  Lemma pu k : Rabs (val64 (x k) * val64 (y k)) <= val64 p.
  Proof.
    clear b Q Hb HQ ch HNp. destruct (decide (k < N)%nat) as [Hk|Hk]; [by apply Hp|]. rewrite dead by (clear -Hk; lia). rewrite Rabs_R0. done.
  Qed.
  Lemma straight_msum_finite v : msum x y (seq 0 N) v -> finite64 v = true.
  Proof.
    intros Hm. apply (msum_bounded x y N dead xu yu p pu _ _ Hm).
    - apply w_two. pose proof (live_N N _ (NoDup_seq 0 N)) as HL. clear -HL HN. lia.
    - fold c'. rewrite c_sum. clear -HNp. lra.
  Qed.
  Lemma chunked_msum_finite v : csum (fun q => msum x y (ch q)) (seq 0 Q) v -> finite64 v = true.
  Proof.
    intros (f&->&Hm)%csum_dot; [|apply NoDup_seq].
    assert (Htot : rsum (fun q => rsum c' (ch q)) (seq 0 Q) = INR N).
    { unfold ch. rewrite rsum_chunks, (rsum_pad c' N (Q * b)), c_sum; [done|done|].
      intros k Hk. unfold c'. rewrite decide_False by lia. done. }
    assert (Hone : forall q, q ∈ seq 0 Q -> rsum c' (ch q) <= INR N).
    { intros q Hq. rewrite <- Htot. apply elem_of_list_split in Hq as (l1&l2&->). rewrite rsum_app. cbn [rsum foldr].
      pose proof (rsum_nonneg (fun q => rsum c' (ch q)) l1 (fun q _ => c_nonneg _)).
      pose proof (rsum_nonneg (fun q => rsum c' (ch q)) l2 (fun q _ => c_nonneg _)).
      unfold rsum in *. lra. }
    assert (Hlive : forall q, w (live N (ch q)) <= 2).
    { intros q. apply w_two. pose proof (live_chunk q). lia. }
    assert (Hin : forall q, q ∈ seq 0 Q -> finite64 (f q) = true /\ Rabs (val64 (f q)) <= w (live N (ch q)) * (rsum c' (ch q) * val64 p)).
    { intros q Hq. apply (msum_bounded x y N dead xu yu p pu _ _ (Hm q Hq) (Hlive q)). fold c'.
      pose proof (Rmult_le_compat_r _ _ _ Hp0 (Hone q Hq)). lra. }
    apply (dot64_bounded2 _ (fun q => 2 * (val64 p * rsum c' (ch q)))).
    - intros q Hq. destruct (Hin q Hq) as [H1 H2]. split; [done|]. eapply Rle_trans; [exact H2|].
      rewrite (Rmult_comm (rsum _ _)).
      apply Rmult_le_compat_r; [apply Rmult_le_pos; [done|apply c_nonneg]|apply Hlive].
    - apply w_two. pose proof (outer_cnt f Hm (fun q Hq => proj1 (Hin q Hq))). pose proof (exponent N b Q Hb). lia.
    - rewrite !rsum_mult, Htot. lra.
  Qed.
End Shapes.

(** ** One entry *)
Section Entry.
  Context (N : nat) (A B : list binary64) (i j : nat).
  Hypothesis HA : (length A = N * N)%nat.
  Hypothesis HB : (length B = N * N)%nat.
  Hypothesis Hi : (i < N)%nat.
  Hypothesis Hj : (j < N)%nat.
  Let x (k : nat) : binary64 := if decide (k < N)%nat then ent N A i k else nzero.
  Let y (tr : bool) (k : nat) : binary64 := if decide (k < N)%nat then if tr then ent N B j k else ent N B k j else nzero.
  Lemma ent_terms (M : list binary64) a b : ent N (TNum <$> M) a b = TNum (ent N M a b).
  Proof. unfold ent. rewrite list_lookup_fmap. by destruct (M !! (a * N + b)%nat). Qed.
  Lemma entry_form tr q : order_ok N tr q ->
    (entry_in tr q N (TNum <$> A) (TNum <$> B) i j = dot (fun k => TMul (TNum (x k)) (TNum (y tr k))) (seq 0 N) \/
    exists b Q, (0 < b)%nat /\ (N <= Q * b)%nat /\
      entry_in tr q N (TNum <$> A) (TNum <$> B) i j = dot (fun q => dot (fun k => TMul (TNum (x k)) (TNum (y tr k))) (seq (q * b) b)) (seq 0 Q)).
  Proof.
    destruct q as [|b|b]; cbn [order_ok entry_in].
    - intros _. left. unfold pentry, prod_entry, prod_t_entry. destruct tr; apply dot_ext; intros k Hk%elem_of_seq;
        rewrite !ent_terms; unfold x, y; by rewrite !decide_True by lia.
    - intros (->&Hb&[Q E]). right. exists b, Q. split; [done|]. split; [lia|]. unfold prod_t_chunks, dot_chunks.
      replace (N / b)%nat with Q by (rewrite E; symmetry; apply Nat.div_mul; lia). apply dot_ext. intros q Hq%elem_of_seq. apply dot_ext. intros k Hk%elem_of_seq.
      rewrite !ent_terms. unfold x, y. rewrite !decide_True by nia. done.
    - intros (->&H1&H3&[z Ez]). right. exists (L1_K b), (SpecTiled.round_up N (L3_K b) / L1_K b)%nat. split; [done|]. split.
      + unfold SpecTiled.round_up. rewrite Ez, Nat.mul_assoc, Nat.div_mul by lia. rewrite <- Nat.mul_assoc, <- Ez. unfold cdiv.
        pose proof (Nat.div_mod (N + (L3_K b - 1)) (L3_K b) ltac:(lia)).
        pose proof (Nat.mod_upper_bound (N + (L3_K b - 1)) (L3_K b) ltac:(lia)). lia.
      + unfold tiled_entry, dot_chunks. apply dot_ext. intros q _. apply dot_ext. intros k _. unfold x, y, pent.
        destruct (decide (k < N)%nat) as [Hk|Hk]; [rewrite !decide_True by lia; by rewrite !ent_terms|]. rewrite !decide_False by lia. reflexivity.
  Qed.
  Lemma x_out k : (N <= k)%nat -> x k = nzero.
  Proof. intros Hk. unfold x. rewrite decide_False by lia. done. Qed.
  Lemma y_out tr k : (N <= k)%nat -> y tr k = nzero.
  Proof. intros Hk. unfold y. rewrite decide_False by lia. done. Qed.
  Lemma close_entry tr v : close_to N x (y tr) v -> Rabs (v - exact_entry tr N A B i j) <= error_bound tr N A B i j.
  Proof.
    unfold close_to, exact_entry, error_bound, magnitude, factor_b.
    assert (E1 : rsum (fun k => val64 (x k) * val64 (y tr k)) (seq 0 N) = rsum (fun k => val64 (ent N A i k) * val64 (if tr then ent N B j k else ent N B k j)) (seq 0 N)).
    { apply rsum_ext. intros k Hk%elem_of_seq. unfold x, y. rewrite !decide_True by lia. done. }
    assert (E2 : rsum (fun k => Rabs (val64 (x k) * val64 (y tr k))) (seq 0 N) = rsum (fun k => Rabs (val64 (ent N A i k) * val64 (if tr then ent N B j k else ent N B k j))) (seq 0 N)).
    { apply rsum_ext. intros k Hk%elem_of_seq. unfold x, y. rewrite !decide_True by lia. done. }
    rewrite E1, E2. done.
  Qed.
  Lemma compiled_close tr q v : order_ok N tr q -> compiled (entry_in tr q N (TNum <$> A) (TNum <$> B) i j) v -> finite64 v = true ->
    Rabs (val64 v - exact_entry tr N A B i j) <= error_bound tr N A B i j.
  Proof.
    intros Hq Hv Hf. apply close_entry. destruct (entry_form tr q Hq) as [E|(b&Q&Hb&HQ&E)]; rewrite E in Hv.
    - apply compiled_msum in Hv. exact (straight_msum N x (y tr) x_out v Hv Hf).
    - apply compiled_csum in Hv. exact (chunked_msum N x (y tr) x_out b Q Hb HQ v Hv Hf).
  Qed.
  (** [p] bounds every product of an entry of A and an entry of B *)
  Lemma compiled_finite_by (p : binary64) tr q v : 0 <= val64 p ->
    (forall x, x ∈ A -> finite64 x = true) -> (forall y, y ∈ B -> finite64 y = true) ->
    (forall x y, x ∈ A -> y ∈ B -> Rabs (val64 x * val64 y) <= val64 p) -> (Z.of_nat N <= 524288)%Z -> INR N * val64 p <= 524288 ->
    order_ok N tr q -> compiled (entry_in tr q N (TNum <$> A) (TNum <$> B) i j) v -> finite64 v = true.
  Proof.
    intros Hp0 HfA HfB Hp HN HNp Hq Hv.
    assert (Hx : forall k, (k < N)%nat -> x k ∈ A) by (intros k Hk; unfold x; rewrite decide_True by done; by apply ent_in).
    assert (Hy : forall k, (k < N)%nat -> y tr k ∈ B) by (intros k Hk; unfold y; rewrite decide_True by done; destruct tr; by apply ent_in).
    destruct (entry_form tr q Hq) as [E|(b&Q&Hb&HQ&E)]; rewrite E in Hv.
    - apply compiled_msum in Hv. apply (straight_msum_finite N x (y tr) x_out (y_out tr)) with (p := p); try done; intros k Hk; auto.
    - apply compiled_csum in Hv. apply (chunked_msum_finite N x (y tr) x_out (y_out tr) b Q Hb HQ) with (p := p); try done; intros k Hk; auto.
  Qed.
  Hypothesis HuA : unit_entries A.
  Hypothesis HuB : unit_entries B.
  Lemma compiled_finite tr q v : (Z.of_nat N <= 524288)%Z -> order_ok N tr q -> compiled (entry_in tr q N (TNum <$> A) (TNum <$> B) i j) v -> finite64 v = true.
  Proof.
    intros HN Hq Hv. assert (HNr : INR N <= 524288) by (rewrite INR_IZR_INZ; apply IZR_le; exact HN).
    assert (H1 : val64 (none1 : binary64) = 1) by apply one_value.
    refine (compiled_finite_by none1 tr q v _ _ _ _ HN _ Hq Hv); [rewrite H1; clear; lra|intros; by apply HuA|intros; by apply HuB| |rewrite H1; clear -HNr; lra].
    intros a b Ha Hb. destruct (HuA a Ha) as [_ H2]. destruct (HuB b Hb) as [_ H3]. rewrite Rabs_mult, H1, <- (Rmult_1_l 1).
    apply Rmult_le_compat; [apply Rabs_pos..|done|done].
  Qed.
  Lemma compiled_near tr q q' v v' : (Z.of_nat N <= 524288)%Z -> order_ok N tr q -> order_ok N tr q' ->
    compiled (entry_in tr q N (TNum <$> A) (TNum <$> B) i j) v -> compiled (entry_in tr q' N (TNum <$> A) (TNum <$> B) i j) v' ->
    finite64 v = true /\ finite64 v' = true /\ Rabs (val64 v - val64 v') <= 2 * error_bound tr N A B i j.
  Proof.
    intros HN Hq Hq' Hv Hv'. pose proof (compiled_finite tr q v HN Hq Hv) as Hf. pose proof (compiled_finite tr q' v' HN Hq' Hv') as Hf'.
    split; [done|]. split; [done|].
    pose proof (compiled_close tr q v Hq Hv Hf) as H1. pose proof (compiled_close tr q' v' Hq' Hv' Hf') as H2.
    set (e := exact_entry tr N A B i j) in *. set (E := error_bound tr N A B i j) in *. clearbody E.
    replace (val64 v - val64 v') with ((val64 v - e) - (val64 v' - e)) by lra.
    pose proof (Rabs_triang (val64 v - e) (- (val64 v' - e))) as Htr. rewrite Rabs_Ropp in Htr. unfold Rminus in *. lra.
  Qed.
  Lemma compiled_accepted tr q q' v v' : (N <= 512)%nat -> order_ok N tr q -> order_ok N tr q' ->
    compiled (entry_in tr q N (TNum <$> A) (TNum <$> B) i j) v -> compiled (entry_in tr q' N (TNum <$> A) (TNum <$> B) i j) v' ->
    small64 (absdiff64 v v') = true.
  Proof.
    intros HN Hq Hq' Hv Hv'. destruct (compiled_near tr q q' v v' ltac:(lia) Hq Hq' Hv Hv') as (Hf&Hf'&Hn).
    apply accept_iff. split; [done|]. split; [done|].
    pose proof (half_threshold N A B i j HA HB Hi Hj HuA HuB HN tr) as H3.
    set (E := error_bound tr N A B i j) in *. clearbody E. lra.
  Qed.
End Entry.

(** ** Without contraction *)
Lemma separate_compiled e : compiled e (separate e).
Proof. induction e; cbn; by constructor. Qed.
Lemma separate_dot (f : nat -> term) ks : separate (dot f ks) = dot (fun k => separate (f k)) ks.
Proof. induction ks as [|k ks IH] using rev_ind; [done|]. rewrite !dot_snoc. cbn. by rewrite IH. Qed.
Lemma separate_entry tr q N (A B : list binary64) i j :
  separate (entry_in tr q N (TNum <$> A) (TNum <$> B) i j) = entry_in tr q N A B i j.
Proof.
  destruct q as [|b|b]; cbn [entry_in].
  - unfold pentry, prod_entry, prod_t_entry. destruct tr; rewrite separate_dot; apply dot_ext; intros k _; cbn; by rewrite !ent_terms.
  - unfold prod_t_chunks, dot_chunks. rewrite separate_dot. apply dot_ext. intros q _. rewrite separate_dot. apply dot_ext. intros k _. cbn. by rewrite !ent_terms.
  - unfold tiled_entry, dot_chunks. rewrite separate_dot. apply dot_ext. intros q _. rewrite separate_dot. apply dot_ext. intros k _.
    cbn. f_equal; unfold pent; (destruct (decide _); [by rewrite ent_terms|done]).
Qed.

(** ** The variants *)
Lemma term_length (M : list binary64) n : length M = n -> length (TNum <$> M) = n.
Proof. by rewrite fmap_length. Qed.
Section Variants.
  Context (N : nat) (A B : list binary64).
  Hypothesis HA : (length A = N * N)%nat.
  Hypothesis HB : (length B = N * N)%nat.
  Lemma compiled_entry (f : nat -> nat -> term) D C i j : is_matrix N f D -> Forall2 compiled D C -> (i < N)%nat -> (j < N)%nat ->
    exists c, C !! (i * N + j)%nat = Some c /\ compiled (f i j) c.
  Proof. intros [HL HD] HC Hi Hj. specialize (HD i j Hi Hj). eapply Forall2_lookup_l in HC; [|exact HD]. exact HC. Qed.
  Lemma contracted_error o G v : o_n o = N -> flag_ok o v -> suitable o G v ->
    always_tol (tolerated v) (computation o G v (TNum <$> A) (TNum <$> B)) (fun D => (length D = N * N)%nat /\
      forall C, Forall2 compiled D C -> forall i j, (i < N)%nat -> (j < N)%nat -> exists c, C !! (i * N + j)%nat = Some c /\
        (finite64 c = true -> Rabs (val64 c - exact_entry (multiplies o v) N A B i j) <= error_bound (multiplies o v) N A B i j)).
  Proof.
    intros Ho Hf Hs. destruct (same_order o G v Hf Hs) as (q&Hq&Hal). rewrite Ho in *.
    eapply must_mono; [|exact (Hal term _ _ _ (term_length _ _ HA) (term_length _ _ HB))].
    intros D m HD. split; [by destruct HD|]. intros C HC i j Hi Hj. destruct (compiled_entry _ _ _ _ _ HD HC Hi Hj) as (c&Hc&Hcc).
    exists c. split; [done|]. intros Hfin. exact (compiled_close N A B i j HA HB Hi Hj _ _ c (Hq i j Hi Hj) Hcc Hfin).
  Qed.
  Lemma contracted_agree o o' G G' v v' : unit_entries A -> unit_entries B -> (Z.of_nat N <= 524288)%Z ->
    o_n o = N -> o_n o' = N -> flag_ok o v -> flag_ok o' v' -> suitable o G v -> suitable o' G' v' -> multiplies o v = multiplies o' v' ->
    always_tol (tolerated v) (computation o G v (TNum <$> A) (TNum <$> B)) (fun D =>
      always_tol (tolerated v') (computation o' G' v' (TNum <$> A) (TNum <$> B)) (fun D' =>
        forall C C', Forall2 compiled D C -> Forall2 compiled D' C' ->
        forall i j, (i < N)%nat -> (j < N)%nat -> exists c c', C !! (i * N + j)%nat = Some c /\ C' !! (i * N + j)%nat = Some c' /\
          finite64 c = true /\ finite64 c' = true /\ Rabs (val64 c - val64 c') <= 2 * error_bound (multiplies o v) N A B i j /\
          ((N <= 512)%nat -> small64 (absdiff64 c c') = true))).
  Proof.
    intros HuA HuB HN Ho Ho' Hf Hf' Hs Hs' Hmul.
    destruct (same_order o G v Hf Hs) as (q&Hq&Hal). destruct (same_order o' G' v' Hf' Hs') as (q'&Hq'&Hal').
    rewrite Ho in *. rewrite Ho' in *. rewrite <- Hmul in *.
    eapply must_mono; [|exact (Hal term _ _ _ (term_length _ _ HA) (term_length _ _ HB))]. intros D m HD.
    eapply must_mono; [|exact (Hal' term _ _ _ (term_length _ _ HA) (term_length _ _ HB))]. intros D' m' HD'.
    intros C C' HC HC' i j Hi Hj.
    destruct (compiled_entry _ _ _ _ _ HD HC Hi Hj) as (c&Hc&Hcc). destruct (compiled_entry _ _ _ _ _ HD' HC' Hi Hj) as (c'&Hc'&Hcc').
    exists c, c'. split; [done|]. split; [done|].
    destruct (compiled_near N A B i j HA HB Hi Hj HuA HuB _ _ _ _ _ HN (Hq i j Hi Hj) (Hq' i j Hi Hj) Hcc Hcc') as (H1&H2&H3).
    split; [done|]. split; [done|]. split; [done|]. intros HN'.
    exact (compiled_accepted N A B i j HA HB Hi Hj HuA HuB _ _ _ _ _ HN' (Hq i j Hi Hj) (Hq' i j Hi Hj) Hcc Hcc').
  Qed.
  Lemma matrix_exists {T} (f : nat -> nat -> T) : exists D, is_matrix N f D.
  Proof.
    exists ((fun p => f (p / N)%nat (p mod N)%nat) <$> seq 0 (N * N)). split; [by rewrite fmap_length, seq_length|].
    intros i j Hi Hj. rewrite list_lookup_fmap, lookup_seq_lt by nia. cbn. f_equal.
    f_equal; symmetry; [apply (Nat.div_unique _ _ _ j)|apply (Nat.mod_unique _ _ i)]; lia.
  Qed.
  Lemma double_among o G v : o_n o = N -> flag_ok o v -> suitable o G v ->
    exists D, always_tol (tolerated v) (computation o G v (TNum <$> A) (TNum <$> B)) (eq D) /\
      Forall2 compiled D (separate <$> D) /\
      always_tol (tolerated v) (computation o G v A B) (eq (separate <$> D)).
  Proof.
    intros Ho Hf Hs. destruct (same_order o G v Hf Hs) as (q&Hq&Hal). rewrite Ho in *.
    destruct (matrix_exists (fun i j => entry_in (multiplies o v) (q i j) N (TNum <$> A) (TNum <$> B) i j)) as [D HD].
    exists D. split; [|split].
    - eapply must_mono; [|exact (Hal term _ _ _ (term_length _ _ HA) (term_length _ _ HB))]. intros D' m HD'. by eapply is_matrix_unique.
    - apply Forall2_fmap_r. induction D as [|e D IH] in |-*; constructor; [apply separate_compiled|done].
    - eapply must_mono; [|exact (Hal binary64 _ _ _ HA HB)]. intros C m HC. eapply is_matrix_unique; [|exact HC].
      destruct HD as [HL HD]. split; [by rewrite fmap_length|]. intros i j Hi Hj. rewrite list_lookup_fmap, HD by done. cbn.
      by rewrite separate_entry.
  Qed.
End Variants.

(** ** Two compilations that differ *)
Definition witness_x : binary64 := B754_finite 53 1024 false 4503599631564800 (-53) eq_refl.
Definition witness_q : binary64 := B754_finite 53 1024 true 4503599627370496 (-54) eq_refl.
Definition witness_A : list binary64 := [witness_q; witness_x; nzero; nzero].
Definition witness_B : list binary64 := [none1; nzero; witness_x; nzero].
Lemma witness_unit : unit_entries witness_A /\ unit_entries witness_B.
Proof.
  assert (Hx : finite64 witness_x = true /\ Rabs (val64 witness_x) <= 1).
  { split; [reflexivity|]. unfold witness_x, B2R, F2R. cbn [Fnum Fexp cond_Zopp]. rewrite (bp 53). change (2 ^ 53)%Z with 9007199254740992%Z.
    rewrite Rabs_pos_eq; lra. }
  assert (Hq : finite64 witness_q = true /\ Rabs (val64 witness_q) <= 1).
  { split; [reflexivity|]. unfold witness_q, B2R, F2R. cbn [Fnum Fexp cond_Zopp]. rewrite (bp 54). change (2 ^ 54)%Z with 18014398509481984%Z.
    change (- (4503599627370496))%Z with (-4503599627370496)%Z. apply Rabs_le. lra. }
  assert (H0 : finite64 nzero = true /\ Rabs (val64 nzero) <= 1).
  { split; [reflexivity|]. change (val64 nzero) with 0. rewrite Rabs_R0. lra. }
  assert (H1 : finite64 none1 = true /\ Rabs (val64 none1) <= 1).
  { split; [reflexivity|]. change (none1 : binary64) with (double_of 1). rewrite one_value, Rabs_R1. lra. }
  split; intros z Hz; unfold witness_A, witness_B in Hz; rewrite !elem_of_cons, elem_of_nil in Hz; destruct Hz as [->|[->|[->|[->|[]]]]]; assumption.
Qed.
Definition witness_terms : list term :=
  let t i j := dot (fun k => TMul (TNum (ent 2 witness_A i k)) (TNum (ent 2 witness_B k j))) (seq 0 2) in
  [t 0%nat 0%nat; t 0%nat 1%nat; t 1%nat 0%nat; t 1%nat 1%nat].
Lemma different_bits o G : o_n o = 2%nat -> o_transposed o = false -> suitable o G Single ->
  exists A B, length A = 4%nat /\ length B = 4%nat /\ unit_entries A /\ unit_entries B /\
    always (computation o G Single (TNum <$> A) (TNum <$> B)) (fun D =>
      exists C C', Forall2 compiled D C /\ Forall2 compiled D C' /\ C <> C').
Proof.
  intros Ho Htr Hs. exists witness_A, witness_B. do 2 (split; [reflexivity|]). do 2 (split; [apply witness_unit|]).
  cbn [suitable computation] in *. rewrite Ho, Htr in *. destruct Hs as (Hr&ms&d&H1&H2&H3&H4).
  destruct (Nat.eqb_spec (o_repetitions o) 0) as [?|_]; [lia|].
  eapply must_mono; [|exact (single_always 2 (TNum <$> witness_A) (TNum <$> witness_B) false (o_block_input o) (o_block_result o) ms d (o_repetitions o) eq_refl eq_refl H1 H2 H3 H4 Hr)].
  intros D m HD. cbv beta in HD.
  assert (D = witness_terms) as ->.
  { eapply is_matrix_unique; [exact HD|]. split; [reflexivity|]. intros i j Hi Hj.
    destruct i as [|[|?]]; [| |lia]; (destruct j as [|[|?]]; [| |lia]); reflexivity. }
  exists (separate <$> witness_terms), (fma64 witness_x witness_x (separate (dot (fun k => TMul (TNum (ent 2 witness_A 0 k)) (TNum (ent 2 witness_B k 0))) (seq 0 1))) :: (separate <$> tail witness_terms)).
  assert (Hall : forall l, Forall2 compiled l (separate <$> l)).
  { induction l as [|e l IH]; constructor; [apply separate_compiled|done]. }
  split; [apply Hall|]. split.
  - constructor; [|apply Hall]. apply compiled_fma_r; [apply separate_compiled|constructor|constructor].
  - intros E. apply (f_equal (fun l : list binary64 => (B2FF 53 1024) <$> (l !! 0%nat))) in E. vm_compute in E. discriminate.
Qed.
