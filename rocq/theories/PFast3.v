(** The benchmark kernels and the application in any order of summation. *)
From Coq Require Import ZArith Reals Psatz String.
From Flocq Require Import Core IEEE754.Binary IEEE754.Bits.
From Verif Require Import Conc ConcFacts Base Num Tools Spec SpecTiled SpecContract SpecExp SpecExp2 SpecBench MExp2 MBench MCeil PCeil MDouble PDouble MContract MFast MBenchFast.
From Verif Require Import Properties13 Properties14 PUtil PTiled5 PBench PBench64 PContract2 PRound PRound2 PContract PContract3 PFast PFast2 MApp SpecApp SpecRound SpecFast.
Local Open Scope nat_scope.

Lemma tlen (n : nat) (M : list binary64) : length M = n * n -> n * n <= length (TNum <$> M).
Proof. rewrite fmap_length. lia. Qed.

(** ** The kernels behind the names of the benchmark *)
Section Kernels.
  Context (n : nat) (p : platform term) (A B Bt : list binary64) (C : list term).
  Context (H256 : (256 | n)) (HA : length A = n * n) (HB : length B = n * n) (HBt : length Bt = n * n) (HC : is_zero n C).
  Context (Hfma : p_fma p = None \/ p_fma p = Some no_fma).
  Context (Hloc : p_reg_result p mod 4 = 0 /\ p_reg_BB p mod 4 = 0 /\ p_gpuasm_AA p mod 4 = 0 /\ p_gpuasm_BB p mod 4 = 0).
  Lemma kernel_entries pA pB pBt pC name : offset_of pA mod 4 = 0 -> offset_of pB mod 4 = 0 -> offset_of pBt mod 4 = 0 -> offset_of pC mod 4 = 0 ->
    name ∈ right_names -> (name ∈ ["register"; "gpuasm"]%string -> is_Some (p_fma p)) -> (name = "asm"%string -> p_asm p = true) ->
    exists kernel f, bench_kernel p n pA pB pBt pC (TNum <$> A) (TNum <$> B) (TNum <$> Bt) C name = Some kernel /\ always kernel (is_matrix n f) /\
      (entries_add n A B false f \/ entries_add n A Bt true f).
  Proof.
    intros OA OB OBt OC Hname Hf Ha.
    assert (n128 : (128 | n)) by (apply (Nat.divide_trans _ 256); [by exists 2|done]).
    assert (n2 : (2 | n)) by (apply (Nat.divide_trans _ 256); [by exists 128|done]).
    assert (n4 : (4 | n)) by (apply (Nat.divide_trans _ 256); [by exists 64|done]).
    assert (H128 : 0 < 128) by (apply Nat.ltb_lt; reflexivity). assert (Hp256 : 0 < 256) by (apply Nat.ltb_lt; reflexivity).
    pose proof (tlen n A HA) as LA. pose proof (tlen n B HB) as LB. pose proof (tlen n Bt HBt) as LBt. assert (LC : length C = n * n) by apply HC.
    unfold right_names in Hname. rewrite !elem_of_cons in Hname.
    destruct Hname as [->|[->|[->|[->|[->|[->|[->|[->|[->|[->|Hname]]]]]]]]]]; unfold bench_kernel; cbn [String.eqb Ascii.eqb Bool.eqb].
    - eexists _, _. split; [reflexivity|]. split; [exact (proj1 (C59_naive_zeroed n _ _ C LA LB HC))|left; apply add_prod].
    - eexists _, _. split; [reflexivity|]. split; [exact (proj2 (C59_naive_zeroed n _ _ C LA LBt HC))|right; apply add_prod_t].
    - eexists _, _. split; [reflexivity|]. split; [exact (C60_counter n _ _ C LA LBt LC)|right; apply add_prod_t].
    - eexists _, _. split; [reflexivity|]. split; [exact (C62_exchanged_shipped (p_junk p) n _ _ C n128 LA LB LC)|left; apply add_prod].
    - eexists _, _. split; [reflexivity|]. split; [exact (C51_blocked2_even n _ _ C LA LBt LC n2)|right; apply add_prod_t].
    - eexists _, _. split; [reflexivity|]. rewrite (Ha eq_refl). split; [exact (C65_asm (offset_of pA) (offset_of pBt) _ _ C n LA LBt LC n4 OA OBt)|].
      right. intros i j Hi Hj. apply (add_asm n A Bt); [lia|done..].
    - eexists _, _. split; [reflexivity|]. split; [exact (C61_gpu_shipped (p_junk p) n _ _ C n128 LA LBt LC)|].
      right. apply add_lanes; [done|by exists 32|done].
    - destruct Hfma as [E|E]; rewrite E in *; [by destruct (Hf ltac:(set_solver))|]. destruct Hloc as (_&_&L3&L4).
      eexists _, _. split; [reflexivity|]. split; [exact (C66_gpuasm_shipped no_fma (p_junk p) (p_gpuasm_AA p) (p_gpuasm_BB p) _ _ C n H256 LA LBt LC L3 L4)|].
      right. apply add_fma_lanes; [done|by exists 64|done].
    - destruct Hfma as [E|E]; rewrite E in *; [by destruct (Hf ltac:(set_solver))|]. destruct Hloc as (L1&L2&_).
      eexists _, _. split; [reflexivity|]. split; [exact (C64_register_fma_shipped no_fma (p_junk p) (p_reg_result p) (p_reg_BB p) _ _ C n H256 LA LB LC L1 L2)|].
      left. apply add_fma.
    - assert ((match p_fma p with Some f => f | None => no_fma end) = no_fma) as -> by (by destruct Hfma as [-> | ->]).
      eexists _, _. split; [reflexivity|].
      split; [exact (C63_intrin_shipped no_fma (p_junk p) (offset_of pA) (offset_of pB) (offset_of pC) _ _ C n n128 LA LB LC OA OB OC)|].
      left. apply add_fma.
    - by apply elem_of_nil in Hname.
  Qed.
End Kernels.

(** ** Transposed and untransposed second factor *)
Lemma factor_transposed n (B Bt : list binary64) k j : is_transpose n n B Bt -> k < n -> j < n -> factor_b true n Bt k j = factor_b false n B k j.
Proof. intros [_ Ht] Hk Hj. unfold factor_b, ent. by rewrite (Ht k j Hk Hj). Qed.
Lemma exact_transposed n (A B Bt : list binary64) i j : is_transpose n n B Bt -> j < n -> exact_entry true n A Bt i j = exact_entry false n A B i j.
Proof. intros Ht Hj. apply rsum_ext. intros k Hk%elem_of_seq. by rewrite (factor_transposed n B Bt k j Ht) by lia. Qed.
Lemma magnitude_transposed n (A B Bt : list binary64) i j : is_transpose n n B Bt -> j < n -> magnitude true n A Bt i j = magnitude false n A B i j.
Proof. intros Ht Hj. apply rsum_ext. intros k Hk%elem_of_seq. by rewrite (factor_transposed n B Bt k j Ht) by lia. Qed.
Lemma near_transposed n (A B Bt C : list binary64) : is_transpose n n B Bt -> near_product true n A Bt C -> near_product false n A B C.
Proof.
  intros Ht [HL HC]. split; [done|]. intros i j Hi Hj. destruct (HC i j Hi Hj) as (c&Hc&He). exists c. split; [done|]. intros Hf.
  unfold sharp_bound in *. rewrite <- (exact_transposed n A B Bt), <- (magnitude_transposed n A B Bt) by done. by apply He.
Qed.
Lemma near_finite_transposed n (A B Bt C : list binary64) : is_transpose n n B Bt -> near_finite_product true n A Bt C -> near_finite_product false n A B C.
Proof.
  intros Ht [HL HC]. split; [done|]. intros i j Hi Hj. destruct (HC i j Hi Hj) as (c&Hc&Hf&He). exists c. split; [done|]. split; [done|].
  unfold sharp_bound in *. rewrite <- (exact_transposed n A B Bt), <- (magnitude_transposed n A B Bt) by done. exact He.
Qed.
Lemma elem_ent n (M : list binary64) x : length M = n * n -> x ∈ M -> exists i j, i < n /\ j < n /\ M !! (i * n + j) = Some x.
Proof.
  intros HL [q Hq]%elem_of_list_lookup. pose proof (lookup_lt_Some _ _ _ Hq) as Hlt. rewrite HL in Hlt. destruct n as [|n]; [lia|].
  exists (q / S n), (q mod S n). split; [apply Nat.div_lt_upper_bound; lia|]. split; [apply Nat.mod_upper_bound; lia|].
  rewrite <- Hq. f_equal. pose proof (Nat.div_mod q (S n) ltac:(lia)). lia.
Qed.
Lemma unit_transposed n (B Bt : list binary64) : length B = n * n -> is_transpose n n B Bt -> unit_entries B -> unit_entries Bt.
Proof.
  intros HB [HL Ht] Hu x Hx. destruct (elem_ent n Bt x HL Hx) as (i&j&Hi&Hj&E). rewrite (Ht j i Hj Hi) in E. apply Hu. by apply elem_of_list_lookup_2 in E.
Qed.

(** ** The identity *)
Local Open Scope R_scope.
Definition all_finite (M : list binary64) : Prop := forall x, x ∈ M -> finite64 x = true.
Lemma ent_finite n M i j : all_finite M -> finite64 (ent n M i j) = true.
Proof. intros HM. unfold ent. destruct (M !! _) as [x|] eqn:E; [|done]. apply HM. by apply elem_of_list_lookup_2 in E. Qed.
Lemma identity_finite n (B : list binary64) : is_identity n B -> all_finite B.
Proof.
  intros [HL HB] x Hx. destruct (elem_ent n B x HL Hx) as (i&j&Hi&Hj&E). rewrite (HB i j Hi Hj) in E.
  assert (x = if decide (i = j) then none1 else nzero) as -> by (symmetry; exact (f_equal (default x) E)). by destruct (decide _).
Qed.
Lemma rsum_single j r ls : NoDup ls -> rsum (fun k => if decide (k = j) then r else 0) ls = if decide (j ∈ ls) then r else 0.
Proof.
  induction 1 as [|k ls Hk Hnd IH]; [by rewrite decide_False by apply not_elem_of_nil|].
  change ((if decide (k = j) then r else 0) + rsum (fun k => if decide (k = j) then r else 0) ls = if decide (j ∈ k :: ls) then r else 0).
  rewrite IH. destruct (decide (k = j)) as [->|Hne].
  - rewrite (decide_False (P := j ∈ ls)) by done. rewrite decide_True by (by left). lra.
  - destruct (decide (j ∈ ls)) as [Hj|Hj]; [rewrite decide_True by (by right); lra|]. rewrite decide_False; [lra|]. set_solver.
Qed.
Lemma submseteq_NoDup {X} (l k : list X) : l ⊆+ k -> NoDup k -> NoDup l.
Proof. intros [r E]%submseteq_Permutation Hk. rewrite E in Hk. apply NoDup_app in Hk. tauto. Qed.
Lemma identity_exact n (A B : list binary64) tr i j : is_identity n B -> all_finite A -> (i < n)%nat -> (j < n)%nat ->
  let x := fun k => ent n A i k in let y := fun k => if tr : bool then ent n B j k else ent n B k j in
  (forall k, finite64 (x k) = true /\ finite64 (y k) = true) /\
  (forall ls, ls ⊆+ seq 0 n -> double_sum x y ls) /\
  rsum (fun k => val64 (x k) * val64 (y k)) (seq 0 n) = val64 (ent n A i j).
Proof.
  intros HB HA Hi Hj x y.
  assert (Hg : forall ls, ls ⊆+ seq 0 n -> rsum (fun k => val64 (x k) * val64 (y k)) ls = if decide (j ∈ ls) then val64 (ent n A i j) else 0).
  { intros ls Hls. rewrite <- rsum_single by (apply (submseteq_NoDup _ _ Hls), NoDup_seq). apply rsum_ext. intros k Hk.
    assert (Hkn : (k < n)%nat) by (eapply (elem_of_submseteq _ _ _ Hk) in Hls; apply elem_of_seq in Hls; lia).
    assert (E : y k = if decide (k = j) then none1 else nzero).
    { unfold y. destruct tr; rewrite (is_matrix_ent n _ B _ _ HB) by done; [|done].
      destruct (decide (j = k)) as [E|E], (decide (k = j)) as [E'|E']; congruence. }
    rewrite E. unfold x. destruct (decide (k = j)) as [->|_].
    - assert (H1 : val64 (none1 : binary64) = 1) by apply one_value. rewrite H1. apply Rmult_1_r.
    - change (val64 nzero) with 0. apply Rmult_0_r. }
  split; [|split].
  - intros k. split; [by apply ent_finite|]. unfold y. destruct tr; by apply ent_finite, (identity_finite n).
  - intros ls Hls. unfold double_sum. rewrite (Hg ls Hls). destruct (decide _); [by exists (ent n A i j)|by exists nzero].
  - rewrite (Hg _ (reflexivity _)). rewrite decide_True; [done|]. apply elem_of_seq. lia.
Qed.

(** ** Any order of the benchmark kernels *)
Section Any.
  Context (n : nat) (p : platform term) (A B Bt : list binary64) (C : list term).
  Context (H256 : (256 | n)%nat) (HA : (length A = n * n)%nat) (HB : (length B = n * n)%nat) (Ht : is_transpose n n B Bt) (HC : is_zero n C).
  Context (Hfma : p_fma p = None \/ p_fma p = Some no_fma).
  Context (Hloc : (p_reg_result p mod 4 = 0 /\ p_reg_BB p mod 4 = 0 /\ p_gpuasm_AA p mod 4 = 0 /\ p_gpuasm_BB p mod 4 = 0)%nat).
  Context (pA pB pBt pC : Z) (OA : (offset_of pA mod 4 = 0)%nat) (OB : (offset_of pB mod 4 = 0)%nat) (OBt : (offset_of pBt mod 4 = 0)%nat) (OC : (offset_of pC mod 4 = 0)%nat).
  Context (name : string) (Hname : name ∈ right_names) (Hf : name ∈ ["register"; "gpuasm"]%string -> is_Some (p_fma p)) (Ha : name = "asm"%string -> p_asm p = true).
  Notation kernel_is k := (bench_kernel p n pA pB pBt pC (TNum <$> A) (TNum <$> B) (TNum <$> Bt) C name = Some k).
  Lemma kernel_any : exists k f, kernel_is k /\ always k (is_matrix n f) /\ (entries_add n A B false f \/ entries_add n A Bt true f).
  Proof. exact (kernel_entries n p A B Bt C H256 HA HB (proj1 Ht) HC Hfma Hloc pA pB pBt pC name OA OB OBt OC Hname Hf Ha). Qed.
  Lemma kernel_near : exists k, kernel_is k /\ always k (fun D => forall R, Forall2 machine D R -> near_product false n A B R).
  Proof.
    destruct kernel_any as (k&f&Ek&Hk&He). exists k. split; [done|]. eapply must_mono; [|exact Hk]. intros D m HD R HR.
    destruct He as [He|He]; [exact (near_product_entries n A B false f D He HD R HR)|].
    apply (near_transposed n A B Bt); [done|]. exact (near_product_entries n A Bt true f D He HD R HR).
  Qed.
  Lemma kernel_near_finite : unit_entries A -> unit_entries B -> (Z.of_nat n <= 524288)%Z ->
    exists k, kernel_is k /\ always k (fun D => forall R, Forall2 machine D R -> near_finite_product false n A B R).
  Proof.
    intros HuA HuB HN. destruct kernel_any as (k&f&Ek&Hk&He). exists k. split; [done|]. eapply must_mono; [|exact Hk]. intros D m HD R HR.
    destruct He as [He|He]; [exact (near_finite_entries n A B false f D HA HB HuA HuB HN He HD R HR)|].
    apply (near_finite_transposed n A B Bt); [done|].
    exact (near_finite_entries n A Bt true f D HA (proj1 Ht) HuA (unit_transposed n B Bt HB Ht HuB) HN He HD R HR).
  Qed.
  Lemma kernel_identity : is_identity n B -> is_identity n Bt -> all_finite A ->
    exists k, kernel_is k /\ always k (fun D => forall R, Forall2 machine D R -> has_values n (fun i j => val64 (ent n A i j)) R).
  Proof.
    intros HI HIt Hfin. destruct kernel_any as (k&f&Ek&Hk&He). exists k. split; [done|]. eapply must_mono; [|exact Hk]. intros D m HD R HR.
    destruct He as [He|He].
    - refine (exact_entries n A B false f D _ He HD _ R HR). intros i j Hi Hj. exact (identity_exact n A B false i j HI Hfin Hi Hj).
    - refine (exact_entries n A Bt true f D _ He HD _ R HR). intros i j Hi Hj. exact (identity_exact n A Bt true i j HIt Hfin Hi Hj).
  Qed.
End Any.
