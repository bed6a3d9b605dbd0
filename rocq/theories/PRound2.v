(** Rounding errors of every suitable variant. *)
From Coq Require Import ZArith Reals Psatz.
From Flocq Require Import Core IEEE754.Binary IEEE754.Bits.
From Verif Require Import Conc ConcFacts Spec SpecTiled SpecSched SpecApp Tools PNaive PUtil PRecursive PPseudo PPseudo2 PAlgorithms PSemi PLooped.
From Verif Require Import Tools2 PTiled PTiled5 MKTest PKTest PKTest2 PProposal PApp PApp2 MCeil PCeil MDouble PDouble SpecRound PRound MApp.
Local Open Scope nat_scope.

Section Order.
  Context {T : Type} `{NumOps T}.
  Context (o : options) (G : nat).
  Notation N := (o_n o).
  Lemma leaf_summed (A B : list T) tr bi bs i j : leaf_ok tr bi bs N -> summed N A B i j tr (leaf_entry tr bi bs N A B i j).
  Proof.
    intros Hl. unfold leaf_entry. destruct tr; cbn [negb]; [|apply (summed_straight N A B i j false)].
    destruct (Nat.eqb_spec bi 0) as [->|Hbi]; [apply (summed_straight N A B i j true)|]. cbn [orb].
    destruct (Nat.ltb_spec bs 4) as [Hbs|Hbs]; [apply (summed_straight N A B i j true)|].
    destruct (Hl eq_refl ltac:(lia) Hbs) as [_ Hd]. apply summed_chunks; [lia|exact Hd].
  Qed.
  Lemma computation_order v (A B : list T) : length A = N * N -> length B = N * N -> flag_ok o v -> suitable o G v ->
    exists f, always_tol (tolerated v) (computation o G v A B) (is_matrix N f) /\
      forall i j, i < N -> j < N -> summed N A B i j (multiplies o v) (f i j).
  Proof.
    intros HA HB Hf Hs. destruct v; cbn [computation suitable multiplies] in *.
    - destruct Hs as (Hr&ms&d&H1&H2&H3&H4). destruct (Nat.eqb_spec (o_repetitions o) 0) as [?|_]; [lia|].
      eexists. split; [apply always_to_tol; exact (single_always N A B (o_transposed o) (o_block_input o) (o_block_result o) ms d (o_repetitions o) HA HB H1 H2 H3 H4 Hr)|].
      intros i j _ _. by apply leaf_summed.
    - destruct Hs as (HN&Hm&HG&Hr&He&Hl).
      destruct (ps_any N A B (o_transposed o) (o_block_input o) (o_block_result o) (o_min_work_size o)
        (o_max_work_difference o) (o_rel o) G (o_repetitions o) HN Hm HG Hr HA HB He Hl) as (f&Hp&Hfe).
      exists f. split; [apply always_to_tol; exact Hp|]. intros i j Hi Hj. destruct (Hfe i j Hi Hj) as (ms&Hms&->). by apply leaf_summed.
    - destruct Hs as (H1&H2&H3&H4). cbn in Hf. rewrite Hf. eexists. split; [apply always_to_tol; exact (alg_order N A B _ _ HA HB H1 H2 H3 H4)|].
      intros i j _ _. by apply summed_chunks.
    - destruct Hs as (H1&H2&H3&H4). destruct (looped_eq_naive N A B HA HB _ _ H1 H2 H3 H4) as (C&HC&Hl&_).
      cbn in Hf. rewrite Hf. exists (prod_t_entry N A B). split; [|intros i j _ _; apply (summed_straight N A B i j true)].
      apply always_to_tol. eapply must_mono; [|exact Hl]. intros C' m ->. exact HC.
    - destruct Hs as (H1&H2&H3). cbn in Hf. rewrite Hf. eexists. split; [apply always_to_tol; exact (semi_order N A B HA HB (o_block_result o) _ H1 H2 H3)|].
      intros i j _ _. by apply summed_chunks.
    - rewrite Hs. cbn in Hf. rewrite Hf. pose proof (combined_order1 shipped N A B shipped_ok HA HB) as Hc.
      eexists. split; [unfold always_tol in *; eapply must_tol; [|exact Hc]; intros l Hl; cbn in Hl; split; [done|exact Hl]|].
      intros i j _ _. apply summed_padded; [cbn; lia|cbn; lia|].
      destruct shipped_ok as (_&(_&_&[x1 E1])&(_&_&[x2 E2])&_). exists (x2 * x1). rewrite E2, E1. lia.
    - done.
    - destruct Hs as (H1&H2&H3). eexists. split; [apply always_to_tol; exact (kts_order N A B (o_transposed o) _ HA HB H2 H3 H1)|].
      intros i j _ _. apply summed_padded; [cbn; lia|cbn; lia|]. exists 32. reflexivity.
    - eexists. split; [apply always_to_tol; exact (kernel_tiled_always shipped N A B (o_transposed o) _ shipped_ok HA HB Hs)|].
      intros i j _ _. apply summed_padded; [cbn; lia|cbn; lia|].
      destruct shipped_ok as (_&(_&_&[x1 E1])&(_&_&[x2 E2])&_). exists (x2 * x1). rewrite E2, E1. lia.
  Qed.
End Order.

Local Open Scope R_scope.
Section Close.
  Context (N : nat) (A B : list binary64) (i j : nat).
  Hypothesis HA : (length A = N * N)%nat.
  Hypothesis HB : (length B = N * N)%nat.
  Hypothesis Hi : (i < N)%nat.
  Hypothesis Hj : (j < N)%nat.
  Let y tr k : binary64 := if (tr : bool) then ent N B j k else ent N B k j.
  Let fN tr k : binary64 := if decide (k < N)%nat then nmul (ent N A i k) (y tr k) else nzero.
  Lemma dot_ext' (f g : nat -> binary64) ks : (forall k, k ∈ ks -> f k = g k) -> dot f ks = dot g ks.
  Proof.
    unfold dot. generalize (nzero : binary64). induction ks as [|k ks IH]; intros z Hfg; cbn; [done|].
    rewrite Hfg by set_solver. apply IH. set_solver.
  Qed.
  Lemma summed_form tr x : summed N A B i j tr x ->
    x = dot (fN tr) (seq 0 N) \/
    exists b Q, (0 < b)%nat /\ (N <= Q * b)%nat /\ x = dot (fun q => dot (fN tr) (seq (q * b) b)) (seq 0 Q).
  Proof.
    intros [tr'|b Hb Hd|b H1 H3 Hd].
    - left. unfold pentry, prod_entry, prod_t_entry. destruct tr'; apply dot_ext'; intros k Hk%elem_of_seq; unfold fN, y; by rewrite decide_True by lia.
    - right. destruct Hd as [Q E]. exists b, Q. split; [done|]. split; [lia|]. unfold prod_t_chunks, dot_chunks.
      replace (N / b)%nat with Q by (rewrite E; symmetry; apply Nat.div_mul; lia). apply dot_ext'. intros q Hq%elem_of_seq. apply dot_ext'. intros k Hk%elem_of_seq.
      unfold fN, y. rewrite decide_True; [done|]. nia.
    - right. destruct Hd as [z Ez]. exists (L1_K b), (SpecTiled.round_up N (L3_K b) / L1_K b)%nat. split; [done|]. split.
      + unfold SpecTiled.round_up. rewrite Ez, Nat.mul_assoc, Nat.div_mul by lia. rewrite <- Nat.mul_assoc, <- Ez. unfold cdiv.
        pose proof (Nat.div_mod (N + (L3_K b - 1)) (L3_K b) ltac:(lia)).
        pose proof (Nat.mod_upper_bound (N + (L3_K b - 1)) (L3_K b) ltac:(lia)). lia.
      + unfold tiled_entry, dot_chunks. apply dot_ext'. intros q _. apply dot_ext'. intros k _. unfold fN, y, pent.
        destruct (decide (k < N)%nat) as [Hk|Hk]; [by rewrite !decide_True by lia|]. rewrite !decide_False by lia. reflexivity.
  Qed.
  Lemma fN_in tr k : (k < N)%nat -> fN tr k = nmul (ent N A i k) (y tr k).
  Proof. intros Hk. unfold fN. by rewrite decide_True. Qed.
  Lemma fN_out tr k : (N <= k)%nat -> fN tr k = nzero.
  Proof. intros Hk. unfold fN. rewrite decide_False by lia. done. Qed.
  Lemma summed_close tr x : summed N A B i j tr x -> finite64 x = true ->
    Rabs (val64 x - exact_entry tr N A B i j) <= error_bound tr N A B i j.
  Proof.
    intros [->|(b&Q&Hb&HQ&->)]%summed_form Hf.
    - exact (straight_close N (ent N A i) (y tr) (fN tr) (fN_in tr) (fN_out tr) Hf).
    - exact (chunked_close N (ent N A i) (y tr) (fN tr) (fN_in tr) (fN_out tr) b Q Hb HQ Hf).
  Qed.
  Hypothesis HuA : unit_entries A.
  Hypothesis HuB : unit_entries B.
  Hypothesis HN : (N <= 512)%nat.
  Lemma ent_in (M : list binary64) a b : (length M = N * N)%nat -> (a < N)%nat -> (b < N)%nat -> ent N M a b ∈ M.
  Proof. intros HM Ha Hb. apply elem_of_list_lookup. exists (a * N + b)%nat. by apply ent_lookup_sq. Qed.
  Lemma y_unit tr k : (k < N)%nat -> finite64 (y tr k) = true /\ Rabs (val64 (y tr k)) <= 1.
  Proof. intros Hk. apply HuB. unfold y. destruct tr; by apply ent_in. Qed.
  Lemma x_unit k : (k < N)%nat -> finite64 (ent N A i k) = true /\ Rabs (val64 (ent N A i k)) <= 1.
  Proof. intros Hk. apply HuA. by apply ent_in. Qed.
  Lemma summed_finite tr x : summed N A B i j tr x -> finite64 x = true.
  Proof.
    intros [->|(b&Q&Hb&HQ&->)]%summed_form.
    - exact (straight_finite N (ent N A i) (y tr) (fN tr) (fN_in tr) (fN_out tr) x_unit (y_unit tr) HN).
    - exact (chunked_finite N (ent N A i) (y tr) (fN tr) (fN_in tr) (fN_out tr) b Q Hb HQ x_unit (y_unit tr) HN).
  Qed.
  Lemma half_threshold tr : error_bound tr N A B i j <= threshold / 2.
  Proof.
    unfold error_bound. assert (Hm : magnitude tr N A B i j <= 512).
    { apply Rle_trans with (rsum (fun _ => 1) (seq 0 N)).
      - apply rsum_le. intros k Hk%elem_of_seq. unfold factor_b. fold (y tr k). rewrite Rabs_mult.
        pose proof (x_unit k ltac:(lia)) as [_ H1]. pose proof (y_unit tr k ltac:(lia)) as [_ H2].
        pose proof (Rabs_pos (val64 (ent N A i k))). pose proof (Rabs_pos (val64 (y tr k))). apply Rle_trans with (1 * 1); [apply Rmult_le_compat; assumption|lra].
      - rewrite rsum_ones, seq_length, INR_IZR_INZ. apply IZR_le. lia. }
    assert (Hm0 : 0 <= magnitude tr N A B i j) by (apply rsum_nonneg; intros; apply Rabs_pos).
    pose proof (w_512 (N + 2) ltac:(lia)) as H2. pose proof (w_ge (N + 2)) as H1.
    assert (HNr : 0 <= INR N <= 512) by (split; [apply pos_INR|rewrite INR_IZR_INZ; apply IZR_le; lia]).
    assert (Hw : w (N + 2) <= 1 + 514 * uro + 514 * uro * (514 * uro)).
    { apply w_514. lia. }
    assert (Hu : uro = / 9007199254740992) by (unfold uro; rewrite (bp 53); reflexivity).
    assert (Ht : 0 < tiny <= / 1267650600228229401496703205376).
    { split; [apply tiny_pos|]. apply Rle_trans with (bpow radix2 (-100)); [apply bpow_le; lia|]. rewrite (bp 100). apply Req_le. reflexivity. }
    assert (Hth : threshold = 15474250491067253 / 154742504910672534362390528) by (unfold threshold; rewrite (bp 87); reflexivity).
    apply Rle_trans with ((514 * uro + 514 * uro * (514 * uro)) * 512 + 512 * / 1267650600228229401496703205376 * 2).
    - apply Rplus_le_compat; [apply Rmult_le_compat; lra|].
      apply Rmult_le_compat; [apply Rmult_le_pos; lra|lra| |lra]. apply Rmult_le_compat; lra.
    - rewrite Hu, Hth. lra.
  Qed.
  Lemma summed_accepted tr x x' : summed N A B i j tr x -> summed N A B i j tr x' -> small64 (absdiff64 x x') = true.
  Proof.
    intros Hx Hx'. pose proof (summed_finite tr x Hx) as Hf. pose proof (summed_finite tr x' Hx') as Hf'.
    apply accept_iff. split; [done|]. split; [done|].
    pose proof (summed_close tr x Hx Hf) as H1. pose proof (summed_close tr x' Hx' Hf') as H2. pose proof (half_threshold tr) as H3.
    set (e := exact_entry tr N A B i j) in *.
    replace (val64 x - val64 x') with ((val64 x - e) - (val64 x' - e)) by lra.
    pose proof (Rabs_triang (val64 x - e) (- (val64 x' - e))) as Htr. rewrite Rabs_Ropp in Htr.
    unfold Rminus in *. lra.
  Qed.
End Close.

(** ** The variants *)
Section Variants.
  Context (N : nat) (A B : list binary64).
  Hypothesis HA : (length A = N * N)%nat.
  Hypothesis HB : (length B = N * N)%nat.
  Lemma variant_error o G v : o_n o = N -> flag_ok o v -> suitable o G v ->
    always_tol (tolerated v) (computation o G v A B) (fun C => (length C = N * N)%nat /\
      forall i j, (i < N)%nat -> (j < N)%nat -> exists c, C !! (i * N + j)%nat = Some c /\
        (finite64 c = true -> Rabs (val64 c - exact_entry (multiplies o v) N A B i j) <= error_bound (multiplies o v) N A B i j)).
  Proof.
    intros Ho Hf Hs. rewrite <- Ho in HA, HB. destruct (computation_order o G v A B HA HB Hf Hs) as (f&Hal&Hsum). rewrite Ho in *.
    eapply must_mono; [|exact Hal]. intros C m [HL HC]. split; [done|]. intros i j Hi Hj. exists (f i j). split; [by apply HC|].
    intros Hfin. apply summed_close; [assumption..|by apply Hsum|done].
  Qed.
  Lemma variants_agree o o' G G' v v' : unit_entries A -> unit_entries B -> (N <= 512)%nat ->
    o_n o = N -> o_n o' = N -> flag_ok o v -> flag_ok o' v' -> suitable o G v -> suitable o' G' v' -> multiplies o v = multiplies o' v' ->
    always_tol (tolerated v) (computation o G v A B) (fun C =>
      always_tol (tolerated v') (computation o' G' v' A B) (fun C' =>
        (length C = N * N)%nat /\ (length C' = N * N)%nat /\
        forall i j, (i < N)%nat -> (j < N)%nat -> exists c c', C !! (i * N + j)%nat = Some c /\ C' !! (i * N + j)%nat = Some c' /\
          finite64 c = true /\ finite64 c' = true /\ small64 (absdiff64 c c') = true)).
  Proof.
    intros HuA HuB HN Ho Ho' Hf Hf' Hs Hs' Hmul.
    destruct (computation_order o G v A B ltac:(by rewrite Ho) ltac:(by rewrite Ho) Hf Hs) as (f&Hal&Hsum).
    destruct (computation_order o' G' v' A B ltac:(by rewrite Ho') ltac:(by rewrite Ho') Hf' Hs') as (f'&Hal'&Hsum').
    rewrite Ho in Hal, Hsum. rewrite Ho' in Hal', Hsum'. rewrite Hmul in Hsum.
    eapply must_mono; [|exact Hal]. intros C m [HL HC]. eapply must_mono; [|exact Hal']. intros C' m' [HL' HC'].
    split; [done|]. split; [done|]. intros i j Hi Hj. exists (f i j), (f' i j). split; [by apply HC|]. split; [by apply HC'|].
    specialize (Hsum i j Hi Hj). specialize (Hsum' i j Hi Hj).
    split; [exact (summed_finite N A B i j HA HB Hi Hj HuA HuB HN _ _ Hsum)|].
    split; [exact (summed_finite N A B i j HA HB Hi Hj HuA HuB HN _ _ Hsum')|].
    exact (summed_accepted N A B i j HA HB Hi Hj HuA HuB HN _ _ _ Hsum Hsum').
  Qed.
  Lemma variant_checked o G v : unit_entries A -> unit_entries B -> (N <= 512)%nat ->
    o_n o = N -> flag_ok o v -> suitable o G v ->
    always_tol (tolerated v) (computation o G v A B) (fun C => (length C = N * N)%nat /\
      forall i j, (i < N)%nat -> (j < N)%nat -> exists c, C !! (i * N + j)%nat = Some c /\
        small64 (absdiff64 c (pentry (multiplies o v) N A B i j)) = true).
  Proof.
    intros HuA HuB HN Ho Hf Hs.
    destruct (computation_order o G v A B ltac:(by rewrite Ho) ltac:(by rewrite Ho) Hf Hs) as (f&Hal&Hsum). rewrite Ho in Hal, Hsum.
    eapply must_mono; [|exact Hal]. intros C m [HL HC]. split; [done|]. intros i j Hi Hj. exists (f i j). split; [by apply HC|].
    apply (summed_accepted N A B i j HA HB Hi Hj HuA HuB HN _ _ _ (Hsum i j Hi Hj)). apply summed_straight.
  Qed.
End Variants.
