(** The exact set of options for which each algorithm computes the product. *)
From Verif Require Import Conc ConcFacts Spec SpecTiled SpecSched SpecApp SpecDomain Tools PNaive PKernels PUtil PRecursive PSchedule PPseudo PAlgorithms PSemi PLooped.
From Verif Require Import Tools2 PTiled PTiled4 PTiled5 MKTest PKTest PKTest2 PProposal PApp PApp2 PDomain2 PDomain3 MApp.

Lemma all_or_some {X : Type} (P : X -> Prop) (l : list X) : (forall x, x ∈ l -> P x \/ ~ P x) ->
  (forall x, x ∈ l -> P x) \/ exists x, x ∈ l /\ ~ P x.
Proof.
  induction l as [|x l IH]; intros Hd; [left; intros x Hx; by apply elem_of_nil in Hx|].
  destruct (Hd x) as [Hx|Hx]; [apply elem_of_cons; by left| |right; exists x; split; [apply elem_of_cons; by left|done]].
  destruct IH as [Ha|(y&Hy&Hn)].
  - intros y Hy. apply Hd, elem_of_cons. by right.
  - left. intros y [->|Hy]%elem_of_cons; [done|by apply Ha].
  - right. exists y. split; [apply elem_of_cons; by right|done].
Qed.

Section Facts.
  Context {T : Type} `{NumOps T}.
  Lemma fails_not {X : Type} (E : err -> Prop) (p : prog T X) c : must_fail E p ∅ -> ~ may_return p c.
  Proof. intros Hf [m Hs]. exact (must_fail_no_ret E c m (must_fail_steps E p ∅ _ m Hf Hs)). Qed.
  Lemma always_val {X : Type} tol (p : prog T X) (Q : X -> Prop) c : always_tol tol p Q -> may_return p c -> Q c.
  Proof. intros Ha [m Hs]. exact (must_ret_inv _ _ _ _ (must_steps _ _ _ _ _ _ Ha Hs)). Qed.
  Lemma always_no_race {X : Type} (p : prog T X) (Q : X -> Prop) l : always p Q -> ~ may_race p ∅ l.
  Proof.
    intros Ha (p'&m'&Hs&Hr). pose proof (must_steps _ _ _ _ _ _ Ha Hs) as Hm.
    inversion Hm as [a m Hq|p0 m Hno Hex Hk]; subst; [destruct Hr|]. by apply Hno in Hr.
  Qed.
End Facts.

Section Ps.
  Context {T : Type} `{NumOps T, !Exact T}.
  Context (N : nat) (A B : list T) (t : bool) (bi br : nat).
  Lemma body_covered ws reps : length A = N * N -> length B = N * N -> 0 < reps ->
    Forall (inside (Z.of_nat N)) ws -> (forall i j, hits i j ws <= 1) ->
    (forall i j, i < N -> j < N -> 0 < hits (Z.of_nat i) (Z.of_nat j) ws) ->
    (forall w, w ∈ ws -> rec_ok t bi br N (Z.to_nat (wN w))) ->
    always (body N A B t bi br ws reps) (is_matrix N (pentry t N A B)).
  Proof.
    intros HA HB Hr Hin Hh Hcov Hrec.
    destruct (body_run N A B t bi br (pentry t N A B) HA HB ws reps Hin Hh) as (C&m&HC&Hm).
    - apply Forall_forall. intros w Hw. destruct (Hrec w Hw) as (ms&d&H1&H2&H3&H4). exists ms, d. split_and!; try done.
      intros i j _ _ _. by apply leaf_entry_exact.
    - done.
    - eapply always_intro; [by apply body_drf|exact HC|]. by rewrite decide_False in Hm by lia.
  Qed.
End Ps.

Section Inside.
  Context {T : Type} `{NumOps T, !Exact T}.
  Lemma domain_inside o G v (A B : list T) : 0 < o_n o -> flag_ok o v -> in_range o v -> computes o G v ->
    length A = o_n o * o_n o -> length B = o_n o * o_n o ->
    always_tol (tolerated v) (computation o G v A B) (is_matrix (o_n o) (pentry (o_transposed o) (o_n o) A B)).
  Proof.
    intros HN Hf Hrg Hc HA HB.
    assert (Hweak : forall p Q, always p Q -> always_tol (T := T) (A := list T) (tolerated v) p Q).
    { intros p Q Hp. by apply (must_tol (fun _ => False)). }
    destruct v; unfold flag_ok in Hf; cbn in Hf; cbn [computes computation] in *.
    - destruct Hc as [Hr Hrec]. destruct (Nat.eqb_spec (o_repetitions o) 0); [lia|]. apply Hweak.
      destruct Hrec as (ms&d&H1&H2&H3&H4). by apply (single_always_exact _ _ _ _ _ _ ms d).
    - destruct Hc as (Hr&all&Hs&Hcov&Hrec). destruct (Hrg eq_refl) as [H62 Hmw]. apply Hweak.
      assert (HG : 0 < G). { destruct G; [done|lia]. }
      destruct (ps_schedule (o_n o) A B (o_transposed o) (o_block_input o) (o_block_result o) (o_min_work_size o) (o_max_work_difference o)
        (o_rel o) G (o_repetitions o) H62 Hmw HG) as (L&s&HL&_&Hst&_&Hi&He).
      unfold pseudodynamic_matrix_multiply in He. rewrite He.
      unfold create_schedule in Hs. rewrite <- HL, Hst in Hs. cbn in Hs. injection Hs as <-.
      apply body_covered; try done; [apply (inv_in _ _ _ Hi)|apply (inv_hits _ _ _ Hi)].
    - destruct Hc as (?&?&?&?). rewrite Hf. apply Hweak. by apply alg_exact.
    - destruct Hc as (?&?&?&?). rewrite Hf. apply Hweak.
      destruct (looped_eq_naive (o_n o) A B HA HB (o_block_result o) (o_block_input o)) as (C&HC&Hl&_); [done..|].
      eapply must_mono; [|exact Hl]. by intros ? ? ->.
    - destruct Hc as (?&?&?). rewrite Hf. apply Hweak. by apply semi_exact.
    - rewrite Hf, Hc. pose proof (combined_exact1 shipped (o_n o) A B shipped_ok HA HB) as Hcb.
      refine (must_tol _ _ _ _ _ _ Hcb). intros l ->. done.
    - done.
    - destruct Hc as (?&?&?&->). apply Hweak. by apply kts_exact.
    - destruct Hc as (?&Ht). apply Hweak. pose proof (kernel_tiled_exact shipped (o_n o) A B (o_transposed o) (o_repetitions o) shipped_ok HA HB ltac:(assumption)) as Hk.
      refine (must_mono _ _ _ _ _ _ Hk). intros C _ HC. destruct Ht as [->|H1]; [exact HC|]. destruct (o_transposed o); [|exact HC].
      rewrite H1 in *. destruct HC as [Hl HC]. split; [done|]. intros i j Hi Hj. rewrite HC by done.
      replace i with 0 by lia. replace j with 0 by lia. done.
  Qed.
End Inside.

Section Outside.
  Context (o : options) (G : nat).
  Notation N := (o_n o).
  Notation t := (o_transposed o).
  Definition wrong (v : SpecApp.choice) : Prop := exists A B : list Z, length A = N * N /\ length B = N * N /\
    forall C, may_return (computation o G v A B) C -> ~ is_matrix N (pentry t N A B) C.

  Lemma ones_length n : length (ones n) = n * n.
  Proof. apply replicate_length. Qed.
  Lemma wrong_ones v : (forall C, may_return (computation o G v (ones N) (ones N)) C -> ~ is_matrix N (pentry t N (ones N) (ones N)) C) -> wrong v.
  Proof. intros Hw. exists (ones N), (ones N). split_and!; [apply ones_length..|done]. Qed.
  Lemma wrong_fails v E : must_fail E (computation o G v (ones N) (ones N)) ∅ -> wrong v.
  Proof. intros Hf. apply wrong_ones. intros C HC. by apply (fails_not E _ C) in Hf. Qed.
  Lemma wrong_value v tol (f : nat -> nat -> Z) i j : i < N -> j < N ->
    always_tol tol (computation o G v (ones N) (ones N)) (is_matrix N f) -> f i j <> Z.of_nat N -> wrong v.
  Proof.
    intros Hi Hj Ha Hne. apply wrong_ones. intros C HC.
    destruct (always_val _ _ _ _ Ha HC) as [_ Hf]. apply (entry_wrong N t ltac:(lia) C (i * N + j) (f i j)); [by apply mixed_lt|by apply Hf|done].
  Qed.
  Lemma wrong_zero v : 0 < N -> always (computation o G v (ones N) (ones N)) (is_zero N) -> wrong v.
  Proof.
    intros HN Ha. apply (wrong_value v (fun _ => False) (fun _ _ => 0%Z) 0 0); [done|done| |lia].
    eapply must_mono; [|exact Ha]. intros C m HC. exact HC.
  Qed.
  Lemma ones_ent i j : i < N -> j < N -> ent N (ones N) i j = 1%Z.
  Proof. intros Hi Hj. apply ent_eq. apply lookup_replicate_2. by apply mixed_lt. Qed.

  Lemma domain_cases v : 0 < N -> flag_ok o v -> in_range o v -> computes o G v \/ wrong v.
  Proof.
    intros HN Hf Hrg. pose proof (ones_length N) as Hl.
    destruct v; unfold flag_ok in Hf; cbn in Hf; cbn [computes].
    - destruct (decide (o_repetitions o = 0)) as [H0|H0].
      + right. apply wrong_ones. cbn [computation]. rewrite (proj2 (Nat.eqb_eq _ _) H0). intros C <-%may_return_ret [Hl0 _]. simpl in Hl0. nia.
      + destruct (rec_ok_dec N t (o_block_input o) (o_block_result o) N HN) as [Hrec|Hrec]; [left; split; [lia|done]|].
        right. apply wrong_ones. cbn [computation]. rewrite (proj2 (Nat.eqb_neq _ _) H0). intros C HC. eapply single_wrong; [done| |exact HC]. by right.
    - destruct (Hrg eq_refl) as [H62 Hmw]. destruct (decide (G = 0)) as [HG|HG].
      { right. apply (wrong_fails Pseudodynamic (fun _ => True)). cbn [computation]. rewrite HG. cbn. by constructor. }
      destruct (ps_schedule N (ones N) (ones N) t (o_block_input o) (o_block_result o) (o_min_work_size o) (o_max_work_difference o)
        (o_rel o) G (o_repetitions o) H62 Hmw ltac:(lia)) as (L&s&HL&_&Hst&_&Hi&He).
      unfold pseudodynamic_matrix_multiply in He.
      assert (Hdrf : drf (body N (ones N) (ones N) t (o_block_input o) (o_block_result o) (concat (all_work s)) (o_repetitions o))).
      { apply body_drf; [apply (inv_in _ _ _ Hi)|apply (inv_hits _ _ _ Hi)]. }
      destruct (decide (o_repetitions o = 0)) as [H0|H0].
      { right. apply wrong_ones. cbn [computation]. rewrite He. intros C [m Hs]. apply drf_return in Hs; [|done].
        eapply body_wrong; [done|apply (inv_in _ _ _ Hi)|apply (inv_hits _ _ _ Hi)| |exact Hs]. by left. }
      destruct (all_or_some (fun w => rec_ok t (o_block_input o) (o_block_result o) N (Z.to_nat (wN w))) (concat (all_work s))) as [Hrec|(w&Hw&Hno)].
      { intros w Hw. destruct (decide (Z.to_nat (wN w) = 0)) as [->|]; [left; apply rec_ok_0|apply rec_ok_dec; lia]. }
      2:{ right. apply wrong_ones. cbn [computation]. rewrite He. intros C [m Hs]. apply drf_return in Hs; [|done].
        eapply body_wrong; [done|apply (inv_in _ _ _ Hi)|apply (inv_hits _ _ _ Hi)| |exact Hs]. right. by exists w. }
      destruct (all_or_some (fun p => 0 < hits (Z.of_nat (p / N)) (Z.of_nat (p mod N)) (concat (all_work s))) (seq 0 (N * N))) as [Hcov|(p&Hp&Hno)].
      { intros p _. destruct (decide (0 < hits (Z.of_nat (p / N)) (Z.of_nat (p mod N)) (concat (all_work s)))); tauto. }
      + left. split; [lia|]. exists (all_work s). split.
        { unfold create_schedule. rewrite <- HL, Hst. done. }
        split; [|done]. intros i j Hi' Hj. specialize (Hcov (i * N + j)).
        rewrite Nat.div_add_l, Nat.div_small, Nat.add_0_r in Hcov by lia.
        rewrite (Nat.add_comm (i * N)), Nat.mod_add, Nat.mod_small in Hcov by lia. apply Hcov, elem_of_seq.
        pose proof (mixed_lt N N i j). lia.
      + right. apply elem_of_seq in Hp. apply wrong_ones. cbn [computation]. rewrite He. intros C [m Hs]. apply drf_return in Hs; [|done].
        assert (p / N < N) by (apply Nat.div_lt_upper_bound; lia). pose proof (Nat.mod_upper_bound p N ltac:(lia)).
        eapply (entry_wrong N t HN C); [|eapply (body_lost _ _ _ _ _ _ _ _ (p / N) (p mod N)); [apply (inv_in _ _ _ Hi)|done|done|lia|exact Hs]|simpl; lia].
        by apply mixed_lt.
    - destruct (decide (o_block_result o = 0)) as [H0|H0].
      { right. eapply wrong_fails. cbn [computation]. rewrite H0. apply alg_zero_result. }
      destruct (decide (o_block_input o = 0)) as [H1|H1].
      { right. eapply wrong_fails. cbn [computation]. rewrite H1. apply alg_zero_input; try done. lia. }
      destruct (div_dec (o_block_result o) N) as [|Hn1]; [lia| |].
      + destruct (div_dec (o_block_input o) N) as [|Hn2]; [lia|left; split_and!; [lia|lia|done|done]|].
        right. eapply wrong_fails. cbn [computation]. apply alg_partial_blocks; try done; [lia|lia|tauto].
      + right. eapply wrong_fails. cbn [computation]. apply alg_partial_blocks; try done; [lia|lia|tauto].
    - destruct (decide (o_block_result o = 0 \/ o_block_input o = 0)) as [H0|H0].
      { right. eapply wrong_fails. cbn [computation]. by apply looped_zero_block_fails. }
      set (br := o_block_result o) in *. set (bi := o_block_input o) in *.
      destruct (decide (N < br \/ N < bi)) as [Hs|Hs].
      { right. apply wrong_zero; [done|]. cbn [computation]. apply looped_zeros; [unfold br in *; lia|unfold bi in *; lia|done]. }
      destruct (div_dec br N) as [Hd|Hd]; [lia| |].
      + destruct (div_dec bi N) as [Hd2|Hd2]; [lia|left; split_and!; [lia|lia|done|done]|].
        right. eapply (wrong_value _ _ _ 0 0); [done|done|cbn [computation]; apply (looped_truncated N (ones N) (ones N)); try done; [unfold br in *; lia|unfold bi in *; lia]|].
        cbv beta. fold bi.
        assert (N / bi * bi < N).
        { pose proof (Nat.mul_div_le N bi ltac:(lia)). destruct (decide (N / bi * bi = N)) as [He|]; [|lia]. destruct Hd2. by exists (N / bi). }
        rewrite (dot_ext _ (fun _ => 1%Z)).
        * rewrite dot_const, seq_length. lia.
        * intros k Hk%elem_of_seq. rewrite !ones_ent by lia. done.
      + right. assert (1 <= N / br) by (apply Nat.div_le_lower_bound; lia). assert (1 <= N / bi) by (apply Nat.div_le_lower_bound; lia).
        destruct (decide (2 <= N / br * (N / bi))) as [H2|H2].
        * eapply wrong_fails. cbn [computation]. apply looped_overshoots_fails; try done; unfold br, bi in *; lia.
        * assert (N / br = 1 /\ N / bi = 1) as [E1 E2] by nia.
          eapply (wrong_value _ _ _ (N - 1) (N - 1)); [lia|lia|cbn [computation]; apply (looped_single_always N (ones N) (ones N)); try done; unfold br, bi in *; lia|].
          cbv beta. rewrite decide_False; [simpl; lia|]. fold br. intros [? _].
          destruct Hd. exists 1. lia.
    - set (bi := o_block_input o) in *. destruct (decide (bi = 0)) as [H0|H0].
      { right. destruct (decide (4 <= N)).
        - eapply wrong_fails. cbn [computation]. fold bi. rewrite H0. by apply semi_zero_block.
        - eapply wrong_fails. cbn [computation]. fold bi. rewrite H0. apply semi_zero_block_small; try done. lia. }
      destruct (div4_dec N) as [Hd|Hd]; [destruct (div_dec bi N) as [Hd2|Hd2]; [lia|left; split_and!; [lia|done|done]|]|].
      + right. eapply wrong_fails. cbn [computation]. apply semi_partial_blocks; try done; [unfold bi in *; lia|fold bi; tauto].
      + right. eapply wrong_fails. cbn [computation]. apply semi_partial_blocks; try done; [unfold bi in *; lia|tauto].
    - destruct (decide (o_repetitions o = 1)) as [|H1]; [by left|]. right.
      apply (wrong_value Combined _ _ 0 0 HN HN (combined_exact shipped N (ones N) (ones N) (o_repetitions o) shipped_ok Hl Hl)).
      cbv beta. unfold times. rewrite dot_const, seq_length.
      change (prod_entry N (ones N) (ones N) 0 0) with (pentry false N (ones N) (ones N) 0 0). unfold ones. rewrite ones_entry by done. nia.
    - right. apply (wrong_fails _ (fun _ => True)). cbn [computation]. rewrite proposal_shipped by done. by constructor.
    - destruct (decide (o_repetitions o = 0)) as [H0|H0].
      { right. apply wrong_zero; [done|]. cbn [computation]. rewrite H0. exact (kts_zero N (ones N) (ones N) t Hl Hl). }
      destruct (div4_dec N) as [Hd|Hd].
      2:{ right. eapply wrong_fails. cbn [computation]. apply kts_misaligned; try done. lia. }
      destruct (decide (SpecTiled.round_up N 512 <= N + 63)) as [Hr|Hr].
      2:{ right. eapply wrong_fails. cbn [computation]. apply kts_oob; try done; lia. }
      destruct t eqn:Et; [|left; split_and!; [lia|done|done|done]]. right.
      assert (2 <= N) by (destruct Hd; lia).
      destruct (kt_disagrees (T := Z) kt_shipped kt_shipped_pos kt_shipped_div kt_shipped_8 kt_padding N (kt_shipped_fits N Hd Hr) ltac:(lia) ltac:(discriminate)) as (A&B&HA&HB&HC).
      exists A, B. split_and!; [done|done|]. intros C Hret. cbn [computation] in Hret. rewrite Et in *.
      specialize (HC (o_repetitions o) ltac:(lia)). apply (always_val _ _ _ _ HC Hret).
    - destruct (decide (o_repetitions o = 0)) as [H0|H0].
      { right. apply wrong_zero; [done|]. cbn [computation]. rewrite H0. exact (kernel_tiled_zero shipped N (ones N) (ones N) t shipped_ok Hl Hl). }
      destruct t eqn:Et; [|left; split; [lia|by left]]. destruct (decide (N = 1)); [left; split; [lia|by right]|]. right.
      destruct (kernel_tiled_disagrees (T := Z) shipped N shipped_ok ltac:(lia) ltac:(discriminate)) as (A&B&HA&HB&HC).
      exists A, B. split_and!; [done|done|]. intros C Hret. cbn [computation] in Hret. rewrite Et in *.
      specialize (HC (o_repetitions o) ltac:(lia)). apply (always_val _ _ _ _ HC Hret).
  Qed.
End Outside.

Section Exact.
  Context (o : options) (G : nat) (v : SpecApp.choice).
  Notation N := (o_n o).
  Notation correct A B := (is_matrix N (pentry (o_transposed o) N A B)).
  Context (HN : 0 < N) (Hf : flag_ok o v) (Hr : in_range o v).

  Lemma domain_outside : ~ computes o G v ->
    exists A B : list Z, length A = N * N /\ length B = N * N /\
      forall C, may_return (computation o G v A B) C -> ~ correct A B C.
  Proof. intros Hno. by destruct (domain_cases o G v HN Hf Hr) as [|Hw]. Qed.

  Lemma domain_exact : computes o G v <->
    forall A B : list Z, length A = N * N -> length B = N * N ->
      always_tol (tolerated v) (computation o G v A B) (correct A B).
  Proof.
    split; [intros Hc A B HA HB; by apply domain_inside|]. intros Hall.
    destruct (domain_cases o G v HN Hf Hr) as [|(A&B&HA&HB&Hw)]; [done|].
    destruct (must_ends _ _ _ _ (Hall A B HA HB)) as (C&m&Hs&HC). destruct (Hw C); [by exists m|done].
  Qed.

  Lemma domain_some_schedule : computes o G v <->
    forall A B : list Z, length A = N * N -> length B = N * N ->
      exists C, may_return (computation o G v A B) C /\ correct A B C.
  Proof.
    split.
    - intros Hc A B HA HB. destruct (must_ends _ _ _ _ (domain_inside o G v A B HN Hf Hr Hc HA HB)) as (C&m&Hs&HC).
      exists C. split; [by exists m|done].
    - intros Hall. destruct (domain_cases o G v HN Hf Hr) as [|(A&B&HA&HB&Hw)]; [done|].
      destruct (Hall A B HA HB) as (C&Hs&HC). by destruct (Hw C).
  Qed.

  Lemma domain_strict : computes o G v /\ (v = Combined -> N <= 256) <->
    forall A B : list Z, length A = N * N -> length B = N * N ->
      always (computation o G v A B) (correct A B).
  Proof.
    split.
    - intros [Hc Hs] A B HA HB. pose proof (domain_inside o G v A B HN Hf Hr Hc HA HB) as Ha.
      assert (Hd : v = Combined \/ v <> Combined) by (destruct v; first [by left|by right]). destruct Hd as [->|Hne].
      + specialize (Hs eq_refl). cbn in Hc. unfold flag_ok in Hf. cbn in Hf. cbn [computation]. rewrite Hc, Hf.
        assert (Hx : N <= L3_X shipped) by (cbn; lia). assert (Hy : N <= L3_Y shipped) by (cbn; lia).
        pose proof (combined_single shipped shipped_ok N A B HA HB 1 Hx Hy) as Hsg.
        refine (must_mono _ _ _ _ _ _ Hsg). intros C m HC. eapply is_matrix_ext; [|exact HC].
        intros i j Hi Hj. rewrite tiled_entry_rep_1. by apply tiled_entry_exact; [apply shipped_ok|..].
      + refine (must_tol _ _ _ _ _ _ Ha). by intros l [? _].
    - intros Hall. split.
      + apply domain_exact. intros A B HA HB. refine (must_tol _ _ _ _ _ _ (Hall A B HA HB)). done.
      + intros Hv. destruct (decide (N <= 256)) as [|Hgt]; [done|]. exfalso.
        pose proof (Hall (ones N) (ones N) (ones_length N) (ones_length N)) as Ha.
        assert (Hc : o_repetitions o = 1).
        { assert (Hc : computes o G v); [|rewrite Hv in Hc; exact Hc].
          apply (proj2 domain_exact). intros A B HA HB. refine (must_tol _ _ _ _ _ _ (Hall A B HA HB)). done. }
        rewrite Hv in Ha. eapply always_no_race; [exact Ha|]. cbn [computation].
        exact (combined_race shipped shipped_ok N (ones N) (ones N) (ones_length N) (ones_length N) (o_repetitions o) ltac:(rewrite Hc; lia) (or_intror (proj1 (Nat.nle_gt _ _) Hgt))).
  Qed.
End Exact.
