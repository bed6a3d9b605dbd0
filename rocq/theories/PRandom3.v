(** What the check of the application notices when the matrix is random. *)
From Coq Require Import ZArith Reals Lra Lia Psatz.
From Flocq Require Import Core IEEE754.Binary IEEE754.Bits.
From Verif Require Import Base Conc ConcFacts Num Spec Tools MRecursive PRecursive PPseudo MCeil PCeil MDouble PDouble SpecRound.
From Verif Require Import MTests SpecTests PTests2 MUtil PUtil MNaive PNaive PApp2 Properties10 Properties11 MRandom SpecRandom PRandom PRandom2 MApp SpecApp.
Local Open Scope nat_scope.

(** * Odd sizes, also in the second repetition *)
Section Odd.
  Context {T : Type} `{NumOps T} (N : nat) (A B : list T) (transposed : bool) (bi br : nat).

  Lemma odd_tail_any path x y n m0 C m' : br < 2 * n + 1 ->
    run (distribute_recursively N A B transposed bi br path x y (2 * n + 1)) m0 = Ok (C, m') ->
    forall p, 2 * n * (2 * n) <= p < (2 * n + 1) * (2 * n + 1) -> C !! p = Some nzero.
  Proof.
    intros Hbs. unfold MRecursive.distribute_recursively. rewrite run_bind.
    replace (2 * n + 1) with (S (2 * n)) at 1 by lia. rewrite dist_node by lia. rewrite run_bind.
    destruct (run_valloc path ((2 * n + 1) * (2 * n + 1)) (nzero : T) m0) as (m1&->&Hz1&_).
    assert (Hhalf : (2 * n + 1) / 2 = n).
    { rewrite Nat.mul_comm, Nat.div_add_l by lia. simpl. rewrite Nat.div_small by lia. lia. }
    destruct (run (parL _ _) m1) as [[u m2]|] eqn:E2; [|done]. intros Hr.
    assert (Hm2 : forall p, 2 * n * (2 * n) <= p < (2 * n + 1) * (2 * n + 1) -> m2 !! (path, p) = Some (VD nzero)).
    { intros p Hp. rewrite <- (Hz1 p) by lia.
      eapply (run_unchanged (fun _ => False) (fun l => exists o, o ∈ offsets n /\ node_w path n o l)); [|exact E2|].
      - apply acc_in_parL. intros o Ho. eapply acc_in_mono; [| |apply node_acc]; [done|].
        rewrite Hhalf in *. intros l Hl. by exists o.
      - intros ([[q ox] oy]&Ho&[Hs|(i&j&Hi&Hj&[= He])]); [by apply sub_cons_ne in Hs|].
        pose proof (offsets_bounds _ _ _ _ Ho). simpl in He.
        assert ((ox + i) * (2 * n) + (oy + j) < 2 * n * (2 * n)) by (apply mixed_lt; lia). simpl in *. lia. }
    apply run_vread_inv in Hr as (_&H1&H3). intros p Hp.
    specialize (H3 p ltac:(lia)). rewrite Hm2 in H3 by done.
    destruct (C !! p); simpl in H3; by simplify_eq.
  Qed.
  Lemma single_odd_lost reps C : Nat.odd N = true -> br < N -> 0 < reps ->
    may_return (single_matrix_multiply N A B transposed bi br reps) C -> C !! ((N - 1) * N + (N - 1)) = Some nzero.
  Proof.
    intros Hodd Hbr Hreps (m'&Hs). apply drf_return in Hs; [|apply single_drf].
    apply Nat.odd_spec in Hodd as [n Hn]. revert Hs. unfold single_matrix_multiply. rewrite forS_step by lia. rewrite rng_1, Nat.sub_0_r.
    assert (Hrs : seq 0 reps <> []) by (destruct reps; [lia|done]).
    generalize dependent (seq 0 reps). intros rs Hrs. generalize (∅ : mem T) as m0. generalize (replicate (N * N) (nzero : T)) as C0.
    induction rs as [|r rs IH]; intros C0 m0 Hs; [done|]. cbn [foldP] in Hs. rewrite run_bind in Hs.
    destruct (run (distribute_recursively N A B transposed bi br [r] 0 0 N) m0) as [[C1 m1]|] eqn:E; [|done].
    destruct rs as [|r' rs]; [|by apply (IH ltac:(done) C1 m1)].
    cbn [foldP] in Hs. injection Hs as -> ->.
    assert (E' : run (distribute_recursively N A B transposed bi br [r] 0 0 (2 * n + 1)) m0 = Ok (C, m')) by (by rewrite <- Hn).
    eapply odd_tail_any; [|exact E'|]; nia.
  Qed.
End Odd.

(** * The identity, for doubles *)
Lemma identity64 N (A : list binary64) : length A = N * N -> Forall (fun x => finite64 x = true /\ neg64 x = false) A ->
  always (let! Id := create_identity_matrix N in naive_matrix_multiply N A Id) (fun C => C = A).
Proof.
  intros HA HF. destruct (create_identity_correct (T := binary64) N) as (I&->&HI). cbn [pbind].
  assert (length I = N * N) by apply HI.
  eapply must_mono; [|by apply naive_correct]. intros C m HC. simpl in HC.
  rewrite Forall_forall in HF.
  eapply is_matrix_unique; [|by apply ent_matrix]. eapply is_matrix_ext; [|exact HC]. intros i j Hi Hj.
  apply unit_prod; [done|exact HI|by apply unit64| |done|done]. intros x Hx. apply unit64. split; apply (HF x Hx).
Qed.

(** * The draws as input *)
Section Draws.
  Context (g : bool) (c : nat -> bool) (a : Z) (Ha : is_multiplier a).
  Notation gen := (draw g c a).

  Lemma draws_nonneg k : nonneg64 (gen k).
  Proof.
    pose proof (draw_range g c a Ha k) as H. destruct (draw_val g c a Ha k) as [F _]. split; [done|].
    destruct (gen k) as [s|s|s p q|s m e q]; try done.
    - change (val64 (B754_zero 53 1024 s)) with 0%R in H. lra.
    - destruct s; [|done]. exfalso. assert (val64 (B754_finite 53 1024 true m e q) < 0)%R by (by apply F2R_lt_0). lra.
  Qed.
  Lemma draws_unit : unit_draws gen.
  Proof. intros k. pose proof (draw_range g c a Ha k) as H. destruct (draw_val g c a Ha k) as [F _]. split; [done|lra]. Qed.
  Lemma phase_small i j : (Z.of_nat i < period)%Z -> (Z.of_nat j < period)%Z -> same_phase i j -> i = j.
  Proof. unfold same_phase. intros Hi Hj. rewrite !Z.mod_small by lia. lia. Qed.
  Lemma distinct_prefix n : NoDup (gen <$> seq 0 n) <-> (Z.of_nat n <= period)%Z.
  Proof.
    split.
    - intros Hnd. destruct (Z.le_gt_cases (Z.of_nat n) period) as [?|Hgt]; [done|exfalso].
      assert (Hpp : (0 < period)%Z) by reflexivity.
      assert (Hp : Z.to_nat period < n) by lia. rewrite NoDup_alt in Hnd.
      assert (Hz : Z.to_nat period <> 0) by lia.
      assert (E : (gen <$> seq 0 n) !! 0 = (gen <$> seq 0 n) !! Z.to_nat period).
      { rewrite !list_lookup_fmap, !lookup_seq_lt by lia. cbn [fmap option_fmap option_map]. rewrite !Nat.add_0_l. refine (f_equal Some _). apply draw_repeats; [done|].
        unfold same_phase. rewrite Z2Nat.id by lia. by rewrite Z_mod_same_full. }
      destruct ((gen <$> seq 0 n) !! 0) as [x|] eqn:E0.
      + specialize (Hnd 0 (Z.to_nat period) x E0 (eq_sym E)). lia.
      + apply lookup_ge_None in E0. rewrite fmap_length, seq_length in E0. lia.
    - intros Hn. apply NoDup_alt. intros i j x Hi Hj.
      assert (Hi' : i < n) by (apply lookup_lt_Some in Hi; by rewrite fmap_length, seq_length in Hi).
      assert (Hj' : j < n) by (apply lookup_lt_Some in Hj; by rewrite fmap_length, seq_length in Hj).
      rewrite list_lookup_fmap, lookup_seq_lt in Hi, Hj by done. cbn in Hi, Hj. injection Hi as Hi. injection Hj as Hj.
      destruct (Z.eq_dec (Z.of_nat i mod period) (Z.of_nat j mod period)) as [E|E]; [apply phase_small; [lia|lia|exact E]|exfalso].
      pose proof (draw_apart g c a Ha i j E) as H. rewrite Hi, Hj, Rminus_diag_eq, Rabs_R0 in H by done. lra.
  Qed.

  Section Run.
    Context (o : options) (localities : nat) (v : choice) (r : outcome binary64).
    Notation N := (o_n o).
    Hypothesis Hh : o_help o = false.
    Hypothesis Hin : (o_algorithm o, v) ∈ accepted.
    Hypothesis Hf : flag_ok o v.
    Hypothesis Hc : o_check o = true.
    Hypothesis He : app_ends (main absdiff64 small64 o localities gen) (Ok r).

    Lemma verdict_close : r_check r = Some true -> length (r_C r) = N * N /\
      forall k, k < N * N -> exists x, r_C r !! k = Some x /\ finite64 x = true /\ (Rabs (val64 x - val64 (gen k)) < / 10 ^ 10)%R.
    Proof.
      intros Hr. destruct (C47_positive_verdict o localities gen v r Hh Hin Hf Hc He Hr) as (B&HI&HL&HE). split; [done|].
      intros k Hk. assert (N <> 0) by (intros E; rewrite E in Hk; simpl in Hk; lia).
      assert (Hkk : k = (k / N) * N + k mod N) by (rewrite (Nat.div_mod k N) at 1 by done; lia).
      assert (H1 : k / N < N) by (apply Nat.div_lt_upper_bound; lia). pose proof (Nat.mod_upper_bound k N ltac:(done)) as H2.
      destruct (HE (k / N) (k mod N) H1 H2) as (x&Hx&Fx&_&Hd). exists x. rewrite <- Hkk in Hx. split; [done|]. split; [done|].
      rewrite unit_pentry in Hd; [|by rewrite fmap_length, seq_length|exact HI|by apply unit64| |done|done].
      - assert (E : ent N (gen <$> seq 0 (N * N)) (k / N) (k mod N) = gen k).
        { assert (Hl : (gen <$> seq 0 (N * N)) !! (k / N * N + k mod N) = Some (ent N (gen <$> seq 0 (N * N)) (k / N) (k mod N)))
            by (apply ent_lookup_sq; [by rewrite fmap_length, seq_length|done|done]).
          rewrite <- Hkk, list_lookup_fmap, lookup_seq_lt in Hl by done. cbn in Hl. by injection Hl. }
        rewrite <- E. exact Hd.
      - intros y (i&->&_)%elem_of_list_fmap. apply unit64, draws_nonneg.
    Qed.
    Lemma verdict_zero k : k < N * N -> r_C r !! k = Some nzero -> r_check r = Some false.
    Proof.
      intros Hk Hz. destruct (C47_check absdiff64 small64 o localities gen v r Hh Hin Hf He) as (_&_&B&_&_&Hv). rewrite Hc in Hv. destruct Hv as (ok&Ho&_).
      destruct ok; [|done]. destruct (verdict_close Ho) as [_ H]. destruct (H k Hk) as (x&Hx&_&Hd). pose proof (eq_trans (eq_sym Hz) Hx) as Ex. injection Ex as <-.
      pose proof (draw_range g c a Ha k) as Hr. cbn [nzero B64_ops] in Hd. change (val64 (B754_zero 53 1024 false)) with 0%R in Hd.
      rewrite Rabs_left in Hd by lra. lra.
    Qed.
    Lemma verdict_exchange k l : k < N * N -> ~ same_phase k l -> r_C r !! k = Some (gen l) -> r_check r = Some false.
    Proof.
      intros Hk Hne Hz. destruct (C47_check absdiff64 small64 o localities gen v r Hh Hin Hf He) as (_&_&B&_&_&Hv). rewrite Hc in Hv. destruct Hv as (ok&Ho&_).
      destruct ok; [|done]. destruct (verdict_close Ho) as [_ H]. destruct (H k Hk) as (x&Hx&_&Hd). pose proof (eq_trans (eq_sym Hz) Hx) as Ex. injection Ex as <-.
      assert (Hne' : ~ same_phase l k) by (unfold same_phase in *; congruence).
      pose proof (draw_apart g c a Ha l k Hne') as Hr. lra.
    Qed.
    (** When every entry of C is an entry of A or zero, the verdict is right. *)
    Lemma verdict_exact : (Z.of_nat N <= 32767)%Z -> length (r_C r) = N * N ->
      (forall x, x ∈ r_C r -> x = nzero \/ x ∈ gen <$> seq 0 (N * N)) ->
      r_check r = Some true <-> r_C r = gen <$> seq 0 (N * N).
    Proof.
      intros HN HL Hx.
      destruct (C47_check absdiff64 small64 o localities gen v r Hh Hin Hf He) as (_&_&B&HI&_&Hv). rewrite Hc in Hv. destruct Hv as (ok&Ho&Hiff).
      assert (Hper : forall k, k < N * N -> (Z.of_nat k < period)%Z) by (intros k Hk; unfold period; nia).
      split.
      - intros Hr. destruct (verdict_close Hr) as [_ H]. apply list_eq_same_length with (N * N); [by rewrite fmap_length, seq_length|done|].
        intros k x y Hk Hkx Hky. rewrite list_lookup_fmap, lookup_seq_lt in Hky by done. cbn in Hky. injection Hky as <-.
        destruct (Hx x) as [->|(l&->&Hl%elem_of_seq)%elem_of_list_fmap]; [by apply elem_of_list_lookup; exists k| |].
        + rewrite (verdict_zero k Hk Hkx) in Hr. done.
        + destruct (Z.eq_dec (Z.of_nat k mod period) (Z.of_nat l mod period)) as [E|E].
          * f_equal. symmetry. apply phase_small; [by apply Hper|apply Hper; lia|exact E].
          * rewrite (verdict_exchange k l Hk E Hkx) in Hr. done.
      - intros HC. rewrite Ho. f_equal. apply Hiff. split; [done|]. intros i j Hi Hj.
        assert (Hk : i * N + j < N * N) by nia.
        assert (Hlk : r_C r !! (i * N + j) = Some (gen (i * N + j))) by (rewrite HC, list_lookup_fmap, lookup_seq_lt by done; done).
        exists (gen (i * N + j)). split; [done|].
        rewrite unit_pentry; [|by rewrite fmap_length, seq_length|exact HI|by apply unit64| |done|done].
        + assert (Hl : (gen <$> seq 0 (N * N)) !! (i * N + j) = Some (ent N (gen <$> seq 0 (N * N)) i j))
            by (apply ent_lookup_sq; [by rewrite fmap_length, seq_length|done|done]).
          rewrite HC, Hl in Hlk. injection Hlk as ->. apply same64. apply draws_nonneg.
        + intros y (k&->&_)%elem_of_list_fmap. apply unit64, draws_nonneg.
    Qed.
    Lemma single_odd_noticed : v = Single -> Nat.odd N = true -> o_block_result o < N -> 0 < o_repetitions o -> r_check r = Some false.
    Proof.
      intros Ev Hodd Hbr Hreps. destruct (C47_check absdiff64 small64 o localities gen v r Hh Hin Hf He) as (_&_&B&_&Hm&_).
      rewrite Ev in Hm. cbn [computation] in Hm. destruct (Nat.eqb_spec (o_repetitions o) 0); [lia|].
      apply (verdict_zero ((N - 1) * N + (N - 1))); [nia|]. by eapply single_odd_lost.
    Qed.
    Lemma pseudo_odd_noticed : v = Pseudodynamic -> Nat.odd N = true -> 3 <= localities -> (Z.of_nat N * Z.of_nat N < 2 ^ 62)%Z ->
      (0 <= o_min_work_size o < Z.of_nat N)%Z -> (o_max_work_difference o <= Z.of_nat N * Z.of_nat N)%Z -> r_check r = Some false.
    Proof.
      intros Ev Hodd HG HN Hm Hd. destruct (C47_check absdiff64 small64 o localities gen v r Hh Hin Hf He) as (_&_&B&_&Hr&_).
      rewrite Ev in Hr. cbn [computation] in Hr. apply (verdict_zero ((N - 1) * N + (N - 1))); [destruct (o_n o); [done|nia]|].
      eapply ps_odd_lost; [exact HN|exact Hm|exact HG|exact Hodd|exact Hd|exact Hr].
    Qed.
  End Run.
End Draws.

(** * The two libraries *)
Lemma residue_iter a n : power_residue a (N.to_nat n) = N.iter n (engine_step a) 1%Z.
Proof.
  induction n as [|n IH] using N.peano_ind; [done|].
  rewrite N2Nat.inj_succ, N.iter_succ, <- IH. symmetry. exact (step_residue a _).
Qed.
Lemma libraries :
  is_multiplier multiplier_libstdcxx /\ power_residue multiplier_libstdcxx (N.to_nat 10000) = 1043618065%Z /\
  is_multiplier multiplier_libcxx /\ power_residue multiplier_libcxx (N.to_nat 10000) = 399268537%Z.
Proof.
  split; [by left|]. split; [|split; [by right|]];
    (rewrite residue_iter; vm_compute; reflexivity).
Qed.
