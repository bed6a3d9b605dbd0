(** The whole application: with the identity as B, every suitable choice ends
    with C = A and a positive check. *)
From Verif Require Import Conc ConcFacts Spec SpecTiled SpecSched SpecApp Tools PNaive PUtil PRecursive PPseudo PAlgorithms PSemi PLooped.
From Verif Require Import Tools2 PTiled PTiled5 MKTest PKTest PKTest2 PProposal PApp MApp.

Section Sums.
  Context {T : Type} `{NumOps T}.
  Lemma dot_none (f : nat -> T) ks : nadd nzero nzero = (nzero : T) -> (forall k, k ∈ ks -> f k = nzero) -> dot f ks = nzero.
  Proof.
    intros Hz. unfold dot. induction ks as [|k ks IH]; intros Hks; cbn; [done|].
    rewrite Hks by set_solver. rewrite Hz. apply IH. set_solver.
  Qed.
  Lemma dot_at (f : nat -> T) lo n k0 x : nadd nzero nzero = (nzero : T) -> nadd nzero x = x -> nadd x nzero = x ->
    lo <= k0 < lo + n -> f k0 = x -> (forall k, lo <= k < lo + n -> k <> k0 -> f k = nzero) -> dot f (seq lo n) = x.
  Proof.
    intros Hz H0x Hx0 Hk Hx Hf. replace n with ((k0 - lo) + S (n - (k0 - lo) - 1)) by lia.
    rewrite seq_app. unfold dot. rewrite foldl_app. fold (dot f (seq lo (k0 - lo))).
    rewrite dot_none; [|done|intros k Hk'%elem_of_seq; apply Hf; lia].
    replace (lo + (k0 - lo)) with k0 by lia. cbn. rewrite Hx, H0x.
    assert (He : forall ks, (forall k, k ∈ ks -> f k = nzero) -> foldl (fun acc k => nadd acc (f k)) x ks = x).
    { induction ks as [|k ks IH]; intros Hks; cbn; [done|]. rewrite Hks by set_solver. rewrite Hx0. apply IH. set_solver. }
    apply He. intros k Hk'%elem_of_seq. apply Hf; lia.
  Qed.
  Lemma chunks_at (f : nat -> T) b N k0 x : nadd nzero nzero = (nzero : T) -> nadd nzero x = x -> nadd x nzero = x ->
    0 < b -> (b | N) -> k0 < N -> f k0 = x -> (forall k, k < N -> k <> k0 -> f k = nzero) -> dot_chunks b f N = x.
  Proof.
    intros Hz H0x Hx0 Hb [q ->] Hk Hx Hf. unfold dot_chunks. rewrite Nat.div_mul by lia.
    assert (Hdm : k0 = b * (k0 / b) + k0 mod b) by (apply Nat.div_mod; lia).
    pose proof (Nat.mod_upper_bound k0 b ltac:(lia)) as Hm.
    assert (Hq : k0 / b < q) by (apply Nat.div_lt_upper_bound; lia).
    apply (dot_at _ _ _ (k0 / b)); [done..|lia| |].
    - apply (dot_at _ _ _ k0); [done..|lia|done|]. intros k Hk' Hne. apply Hf; [nia|done].
    - intros q' Hq' Hne. apply dot_none; [done|]. intros k Hk'%elem_of_seq. apply Hf; [nia|].
      intros ->. apply Hne. apply (Nat.div_unique _ _ _ (k0 - q' * b)); lia.
  Qed.
End Sums.

Section Unit.
  Context {T : Type} `{NumOps T} (N : nat) (A B : list T).
  Hypothesis HA : length A = N * N.
  Hypothesis HB : is_identity N B.
  Hypothesis Hz : unit_on (nzero : T).
  Hypothesis Hu : forall x, x ∈ A -> unit_on x.
  Let f (i k j : nat) : T := nmul (ent N A i k) (ent N B k j).

  Lemma ent_unit i j : i < N -> j < N -> unit_on (ent N A i j).
  Proof. intros Hi Hj. apply Hu, elem_of_list_lookup. exists (i * N + j). by apply ent_lookup_sq. Qed.
  Lemma term_at i j k : i < N -> j < N -> k < N -> nmul (ent N A i k) (ent N B k j) = if decide (k = j) then ent N A i j else nzero.
  Proof.
    intros Hi Hj Hk. rewrite (is_matrix_ent N _ B k j HB) by done. destruct (ent_unit i k Hi Hk) as (H1&H0&_).
    destruct (decide (k = j)) as [->|]; [exact H1|exact H0].
  Qed.
  Lemma term_t_at i j k : i < N -> j < N -> k < N -> nmul (ent N A i k) (ent N B j k) = if decide (k = j) then ent N A i j else nzero.
  Proof.
    intros Hi Hj Hk. rewrite (is_matrix_ent N _ B j k HB) by done. destruct (ent_unit i k Hi Hk) as (H1&H0&_).
    destruct (decide (j = k)) as [Hjk|Hjk], (decide (k = j)) as [Hkj|Hkj]; [by subst|by destruct Hkj|by destruct Hjk|done].
  Qed.
  Lemma unit_prod i j : i < N -> j < N -> prod_entry N A B i j = ent N A i j.
  Proof.
    intros Hi Hj. destruct (ent_unit i j Hi Hj) as (_&_&?&?). destruct Hz as (_&_&?&_).
    apply (dot_at _ _ _ j); [done..|lia| |].
    - rewrite term_at by done. by rewrite decide_True.
    - intros k Hk Hne. rewrite term_at by lia. by rewrite decide_False.
  Qed.
  Lemma unit_prod_t i j : i < N -> j < N -> prod_t_entry N A B i j = ent N A i j.
  Proof.
    intros Hi Hj. destruct (ent_unit i j Hi Hj) as (_&_&?&?). destruct Hz as (_&_&?&_).
    apply (dot_at _ _ _ j); [done..|lia| |].
    - rewrite term_t_at by done. by rewrite decide_True.
    - intros k Hk Hne. rewrite term_t_at by lia. by rewrite decide_False.
  Qed.
  Lemma unit_chunks b i j : 0 < b -> (b | N) -> i < N -> j < N -> prod_t_chunks b N A B i j = ent N A i j.
  Proof.
    intros Hb Hd Hi Hj. destruct (ent_unit i j Hi Hj) as (_&_&H1&H2). destruct Hz as (_&_&H3&_).
    apply (chunks_at _ _ _ j _ H3 H1 H2 Hb Hd Hj).
    - rewrite term_t_at by done. by rewrite decide_True.
    - intros k Hk Hne. rewrite term_t_at by lia. by rewrite decide_False.
  Qed.
  Lemma unit_leaf tr bi bs i j : leaf_ok tr bi bs N -> i < N -> j < N -> leaf_entry tr bi bs N A B i j = ent N A i j.
  Proof.
    intros Hl Hi Hj. unfold leaf_entry. destruct tr; cbn [negb]; [|by apply unit_prod].
    destruct (Nat.eqb_spec bi 0) as [->|Hbi]; [by apply unit_prod_t|]. cbn [orb].
    destruct (Nat.ltb_spec bs 4) as [Hbs|Hbs]; [by apply unit_prod_t|].
    destruct (Hl eq_refl ltac:(lia) Hbs) as [_ Hd]. apply unit_chunks; [lia|exact Hd|done|done].
  Qed.
  Lemma unit_pentry tr i j : i < N -> j < N -> pentry tr N A B i j = ent N A i j.
  Proof. intros Hi Hj. destruct tr; [by apply unit_prod_t|by apply unit_prod]. Qed.
  Lemma unit_tiled b i j : 0 < L1_K b -> 0 < L3_K b -> (L1_K b | L3_K b) -> i < N -> j < N -> tiled_entry b N A B i j = ent N A i j.
  Proof.
    intros H1 H3 Hd Hi Hj. destruct (ent_unit i j Hi Hj) as (_&_&Ha&Hb). pose proof Hz as (_&Hm&Hs&_).
    assert (HNr : N <= SpecTiled.round_up N (L3_K b)).
    { unfold SpecTiled.round_up, cdiv. pose proof (Nat.div_mod (N + (L3_K b - 1)) (L3_K b) ltac:(lia)).
      pose proof (Nat.mod_upper_bound (N + (L3_K b - 1)) (L3_K b) ltac:(lia)). lia. }
    assert (Hdr : (L1_K b | SpecTiled.round_up N (L3_K b))).
    { unfold SpecTiled.round_up. apply Nat.divide_mul_r. exact Hd. }
    apply (chunks_at _ _ _ j _ Hs Ha Hb H1 Hdr).
    - lia.
    - rewrite !pent_in by done. rewrite term_at by done. by rewrite decide_True.
    - intros k Hk Hne. destruct (decide (k < N)) as [HkN|HkN].
      + rewrite !pent_in by done. rewrite term_at by done. by rewrite decide_False.
      + unfold pent. rewrite !decide_False by lia. exact Hm.
  Qed.
End Unit.

Lemma must_tol {T} `{NumOps T} {X : Type} (tol tol' : loc -> Prop) (p : prog T X) (Q : X -> mem T -> Prop) (m : mem T) :
  (forall l, tol l -> tol' l) -> must tol Q p m -> must tol' Q p m.
Proof. intros Ht Hm. induction Hm as [a m Ha|p m Hr Hex _ IH]; [by apply must_ret|]. apply must_step; [auto|done|done]. Qed.
Lemma app_to_tol {T} `{NumOps T} {R : Type} (tol : loc -> Prop) (a : app T R) Q : app_always (fun _ => False) a Q -> app_always tol a Q.
Proof.
  induction a as [r|e|X p k IH]; cbn; [done..|]. intros Hm. apply (must_tol (fun _ => False)); [done|].
  eapply must_mono; [|exact Hm]. intros x m. apply IH.
Qed.

Lemma must_ends {T} `{NumOps T} {X : Type} (tol : loc -> Prop) (p : prog T X) (Q : X -> mem T -> Prop) (m : mem T) :
  must tol Q p m -> exists a m', steps X p m (Ret a) m' /\ Q a m'.
Proof.
  induction 1 as [a m Ha|p m Hr (p'&m'&Hs) _ IH]; [exists a, m; split; [constructor|done]|].
  destruct (IH _ _ Hs) as (a&m2&Hst&Ha). exists a, m2. split; [|done]. by econstructor.
Qed.
Lemma app_always_ends {T} `{NumOps T} {R : Type} (tol : loc -> Prop) (a : app T R) Q : app_always tol a Q -> exists r, app_ends a (Ok r) /\ Q r.
Proof.
  induction a as [r|e|X p k IH]; cbn; [by eauto|done|]. intros Hm.
  destruct (must_ends _ _ _ _ Hm) as (x&m'&Hst&Hx). destruct (IH x Hx) as (r&He&Hq). exists r. split; [|done].
  left. exists x. split; [by exists m'|done].
Qed.

Section EndToEnd.
  Context {T : Type} `{NumOps T}.
  Context (o : options) (G : nat).
  Notation N := (o_n o).

  Lemma computation_ok v (A B : list T) : length A = N * N -> is_identity N B -> unit_on (nzero : T) -> (forall x, x ∈ A -> unit_on x) ->
    flag_ok o v -> suitable o G v -> always_tol (tolerated v) (computation o G v A B) (fun C => C = A).
  Proof.
    intros HA HI Hz Hu Hf Hs. assert (HB : length B = N * N) by apply HI.
    assert (Hfin : forall C f, is_matrix N f C -> (forall i j, i < N -> j < N -> f i j = ent N A i j) -> C = A).
    { intros C f HC Hfe. eapply is_matrix_unique; [|by apply ent_matrix]. eapply is_matrix_ext; [|exact HC]. exact Hfe. }
    destruct v; cbn [computation suitable] in *.
    - destruct Hs as (Hr&ms&d&H1&H2&H3&H4). destruct (Nat.eqb_spec (o_repetitions o) 0) as [?|_]; [lia|].
      apply always_to_tol. eapply must_mono; [|exact (single_always N A B (o_transposed o) (o_block_input o) (o_block_result o) ms d (o_repetitions o) HA HB H1 H2 H3 H4 Hr)].
      intros C m HC. cbn in HC. apply (Hfin C _ HC). intros i j Hi Hj. exact (unit_leaf N A B HA HI Hz Hu _ _ _ i j H4 Hi Hj).
    - destruct Hs as (HN&Hm&HG&Hr&He&Hl). apply always_to_tol.
      pose proof (ps_always N A B (o_transposed o) (o_block_input o) (o_block_result o) (o_min_work_size o)
        (o_max_work_difference o) (o_rel o) G (o_repetitions o) (ent N A) HN Hm HG HA HB He) as Hp.
      rewrite decide_False in Hp by lia. unfold pseudodynamic_matrix_multiply in Hp.
      eapply must_mono; [|apply Hp].
      + intros C m HC. cbn in HC. by apply (Hfin C _ HC).
      + intros n Hn. destruct (Hl n Hn) as (ms&d&H1&H2&H3&H4). exists ms, d. split; [exact H1|]. split; [exact H2|].
        split; [exact H3|]. split; [exact H4|]. intros i j Hi Hj. exact (unit_leaf N A B HA HI Hz Hu _ _ _ i j H4 Hi Hj).
    - destruct Hs as (H1&H2&H3&H4). apply always_to_tol.
      eapply must_mono; [|exact (alg_order N A B _ _ HA HB H1 H2 H3 H4)].
      intros C m HC. cbn in HC. apply (Hfin C _ HC). intros i j Hi Hj. exact (unit_chunks N A B HA HI Hz Hu _ i j H2 H4 Hi Hj).
    - destruct Hs as (H1&H2&H3&H4). apply always_to_tol.
      destruct (looped_eq_naive N A B HA HB _ _ H1 H2 H3 H4) as (C&HC&Hl&_).
      eapply must_mono; [|exact Hl]. intros C' m ->. apply (Hfin C _ HC). intros i j Hi Hj. exact (unit_prod_t N A B HA HI Hz Hu i j Hi Hj).
    - destruct Hs as (H1&H2&H3). apply always_to_tol.
      eapply must_mono; [|exact (semi_order N A B HA HB (o_block_result o) _ H1 H2 H3)].
      intros C m HC. cbn in HC. apply (Hfin C _ HC). intros i j Hi Hj. exact (unit_chunks N A B HA HI Hz Hu _ i j H1 H3 Hi Hj).
    - rewrite Hs. pose proof (combined_order1 shipped N A B shipped_ok HA HB) as Hc.
      unfold always_tol in *. eapply must_tol; [|eapply must_mono; [|exact Hc]].
      + intros l Hl. cbn in Hl. split; [done|exact Hl].
      + intros C m HC. cbn in HC. apply (Hfin C _ HC). intros i j Hi Hj. apply (unit_tiled N A B HA HI Hz Hu); [cbn; lia|cbn; lia| |done|done].
        destruct shipped_ok as (_&(_&_&[x1 E1])&(_&_&[x2 E2])&_). exists (x2 * x1). rewrite E2, E1. lia.
    - done.
    - destruct Hs as (H1&H2&H3). apply always_to_tol.
      eapply must_mono; [|exact (kts_order N A B (o_transposed o) _ HA HB H2 H3 H1)].
      intros C m HC. cbn in HC. apply (Hfin C _ HC). intros i j Hi Hj.
      apply (unit_tiled N A B HA HI Hz Hu); [cbn; lia|cbn; lia| |done|done]. exists 32. reflexivity.
    - apply always_to_tol. eapply must_mono; [|exact (kernel_tiled_always shipped N A B (o_transposed o) _ shipped_ok HA HB Hs)].
      intros C m HC. cbn in HC. apply (Hfin C _ HC). intros i j Hi Hj. apply (unit_tiled N A B HA HI Hz Hu); [cbn; lia|cbn; lia| |done|done].
      destruct shipped_ok as (_&(_&_&[x1 E1])&(_&_&[x2 E2])&_). exists (x2 * x1). rewrite E2, E1. lia.
  Qed.

  Context (absdiff : T -> T -> T) (small : T -> bool) (gen : nat -> T).
  Lemma app_end_to_end v : o_help o = false -> (o_algorithm o, v) ∈ accepted -> flag_ok o v -> suitable o G v ->
    unit_on (nzero : T) -> (forall k, k < N * N -> unit_on (gen k) /\ small (absdiff (gen k) (gen k)) = true) ->
    app_always (tolerated v) (main absdiff small o G gen)
      (fun r => r = Outcome 0 false (if o_check o then Some true else None) (gen <$> seq 0 (N * N))).
  Proof.
    intros Hh Hin Hf Hs Hz Hg.
    destruct (main_dispatch absdiff small o G gen v Hh Hin Hf) as (B&HI&Hsame). eapply same_always; [exact Hsame|]. clear Hsame.
    set (A := mat_A o gen) in *. assert (HA : length A = N * N) by apply mat_A_length.
    assert (HB : length B = N * N) by apply HI.
    assert (Hel : forall x, x ∈ A -> unit_on x /\ small (absdiff x x) = true).
    { intros x Hx. unfold A, mat_A in Hx. apply elem_of_list_fmap in Hx as (k&->&Hk%elem_of_seq). apply Hg. lia. }
    cbn [app_always]. eapply must_mono; [|apply (computation_ok v A B HA HI Hz (fun x Hx => proj1 (Hel x Hx)) Hf Hs)].
    intros C m ->. cbn beta.
    destruct (o_check o) eqn:Hc.
    - destruct (report_checked absdiff small o gen A B A Hc HA HB (or_intror HA)) as (ok&Hok&Ha).
      assert (ok = true) as ->.
      { apply Hok. split; [done|]. intros i j Hi Hj. exists (ent N A i j). split; [by apply ent_lookup_sq|].
        rewrite (unit_pentry N A B HA HI Hz (fun x Hx => proj1 (Hel x Hx))) by done.
        apply Hel, elem_of_list_lookup. exists (i * N + j). by apply ent_lookup_sq. }
      apply app_to_tol. eapply app_always_mono; [|exact Ha]. intros r ->. reflexivity.
    - unfold report. rewrite finish_unchecked by (by left). cbn [g_C].
      destruct (2 <=? o_verbose o); [|done]. destruct (print_sq_ok o A HA) as (x&->). by apply always_tol_ret.
  Qed.
End EndToEnd.

Section Other.
  Context {T : Type} `{NumOps T}.
  Context (absdiff : T -> T -> T) (small : T -> bool) (o : options) (G : nat) (gen : nat -> T).
  Notation N := (o_n o).
  Notation main := (main absdiff small o G gen).

  Lemma main_default rel : app_fails (fun e => e = EOob) (MApp.main absdiff small (default_options rel) G gen).
  Proof.
    destruct (main_dispatch absdiff small (default_options rel) G gen Single eq_refl) as (B&HI&Hs); [set_solver|done|].
    eapply same_fails; [exact Hs|]. left. cbn [computation]. cbn -[single_matrix_multiply mat_A].
    rewrite (default_cli (mat_A (default_options rel) gen) B); [by constructor|apply mat_A_length|apply HI].
  Qed.

  Lemma main_help_kernel_test : o_help o = true -> o_algorithm o = "kernel_test"%string -> 0 < N ->
    app_fails (fun e => e = EOob) main.
  Proof.
    intros Hh Ha HN. unfold MApp.main, hpx_main. rewrite Hh, Ha. cbn [abind String.eqb Ascii.eqb Bool.eqb g_A g_B].
    left. unfold kernel_test_matrix_multiply.
    destruct (run_valloc idCp ((N + kt_padding) * (N + kt_padding)) (nzero : T) ∅) as (m&Hr&_).
    eapply must_fail_after; [apply nopar_valloc|exact Hr|]. apply must_fail_bind.
    unfold kt_pad. rewrite !forS_step by lia. rewrite rng_1. destruct N as [|n]; [lia|]. cbn -[replicate forS].
    rewrite forS_step by lia. rewrite rng_1. cbn -[replicate]. by constructor.
  Qed.
  Lemma main_help_kernel_tiled : o_help o = true -> o_algorithm o = "kernel_tiled"%string -> 0 < N ->
    app_fails (fun e => e = EOutOfRange) main.
  Proof.
    intros Hh Ha HN. unfold MApp.main, hpx_main. rewrite Hh, Ha. cbn [abind String.eqb Ascii.eqb Bool.eqb g_A g_B].
    left. unfold kernel_tiled_matrix_multiply. rewrite shipped_verify. cbn [negb]. apply must_fail_bind.
    unfold pad_A. rewrite !forS_step by lia. rewrite rng_1. destruct N as [|n]; [lia|]. cbn -[replicate forS padding].
    rewrite forS_step by lia. rewrite rng_1. cbn -[replicate padding]. by constructor.
  Qed.

  (** What the check says, whatever the computation returns. *)
  Lemma app_check v r : o_help o = false -> (o_algorithm o, v) ∈ accepted -> flag_ok o v -> app_ends main (Ok r) ->
    r_status r = 0 /\ r_invalid r = false /\
    exists B, is_identity N B /\ may_return (computation o G v (gen <$> seq 0 (N * N)) B) (r_C r) /\
      if o_check o then exists ok, r_check r = Some ok /\
          is_verdict (fun x y => small (absdiff x y) = true) N (pentry (o_transposed o) N (gen <$> seq 0 (N * N)) B) (r_C r) ok
      else r_check r = None.
  Proof.
    intros Hh Hin Hf He. destruct (main_dispatch absdiff small o G gen v Hh Hin Hf) as (B&HI&Hs).
    apply Hs in He. cbn [app_ends] in He. destruct He as [(C&HC&He)|(e&_&He)]; [|done].
    change (gen <$> seq 0 (N * N)) with (mat_A o gen). set (A := mat_A o gen) in *.
    assert (HA : length A = N * N) by apply mat_A_length. assert (HB : length B = N * N) by apply HI.
    enough (Hfin : app_ends (finish absdiff small o (Globals A B C false true)) (Ok r) ->
      r_status r = 0 /\ r_invalid r = false /\ r_C r = C /\
      if o_check o then exists ok, r_check r = Some ok /\
          is_verdict (fun x y => small (absdiff x y) = true) N (pentry (o_transposed o) N A B) C ok
      else r_check r = None).
    { assert (Hr : app_ends (finish absdiff small o (Globals A B C false true)) (Ok r)).
      { unfold report in He. destruct (2 <=? o_verbose o); [|exact He]. cbn [app_ends] in He.
        destruct He as [(y&_&He)|(e&_&He)]; [exact He|done]. }
      destruct (Hfin Hr) as (H1&H2&H3&H4). split; [done|]. split; [done|]. exists B. rewrite H3. done. }
    clear He. intros He. destruct (o_check o) eqn:Hc.
    - destruct (reference_ok o A B HA HB) as (Cref&HR&Hal).
      unfold finish in He. cbn [g_A g_B g_C g_is_root] in He. rewrite Hc in He. cbn [andb app_ends] in He.
      destruct He as [(C'&HC'&He)|(e&_&He)]; [|done].
      assert (C' = Cref) as ->.
      { destruct HC' as (m'&Hst). exact (must_ret_inv _ _ _ _ (must_steps _ _ _ _ _ _ Hal Hst)). }
      set (ok := equal_results absdiff small C Cref) in *.
      assert (r = Outcome 0 false (Some ok) C) as ->.
      { destruct (2 <=? o_verbose o); cbn [app_ends] in He; [|by injection He].
        destruct He as [(?&_&He)|(e&_&He)]; [|done]. destruct He as [(?&_&He)|(e&_&He)]; [|done].
        destruct He as [(?&_&He)|(e&_&He)]; [|done]. by injection He. }
      do 3 (split; [done|]). exists ok. split; [done|]. by apply equal_results_verdict.
    - rewrite finish_unchecked in He by (by left). cbn [app_ends] in He. injection He as ->. done.
  Qed.

  (** With no repetitions there is no result matrix at all. *)
  Lemma main_single_no_repetition : o_help o = false -> o_algorithm o = "single"%string -> o_repetitions o = 0 -> o_check o = true ->
    0 < N ->
    if decide (o_verbose o < 2) then app_always (fun _ => False) main (fun r => r = Outcome 0 false (Some false) [])
    else app_fails (fun e => e = EOutOfRange) main.
  Proof.
    intros Hh Ha Hr Hc HN.
    destruct (main_dispatch absdiff small o G gen Single Hh) as (B&HI&Hs); [rewrite Ha; set_solver|done|].
    cbn [computation] in Hs. rewrite Hr in Hs. cbn [Nat.eqb] in Hs.
    assert (HA : length (mat_A o gen) = N * N) by apply mat_A_length. assert (HB : length B = N * N) by apply HI.
    destruct (decide (o_verbose o < 2)) as [Hv|Hv].
    - eapply same_always; [exact Hs|]. apply always_tol_ret.
      destruct (report_checked absdiff small o gen (mat_A o gen) B [] Hc HA HB (or_introl Hv)) as (ok&Hok&Ha').
      assert (ok = false) as ->; [|exact Ha']. apply not_true_is_false. intros ->.
      destruct Hok as [Hok _]. destruct (Hok eq_refl) as [Hl _]. cbn in Hl. nia.
    - eapply same_fails; [exact Hs|]. right. apply always_tol_ret. apply report_short; [lia|cbn; nia].
  Qed.
End Other.

(** combined adds up its repetitions; the check notices unless the tolerance hides it. *)
Section CombinedReps.
  Context {T : Type} `{NumOps T} `{!Exact T} `{!UnitLaws T}.
  Context (absdiff : T -> T -> T) (small : T -> bool) (o : options) (G : nat) (gen : nat -> T).
  Notation N := (o_n o).
  Lemma main_combined_reps k : o_help o = false -> o_algorithm o = "combined"%string -> o_transposed o = false -> o_check o = true ->
    k < N * N -> small (absdiff (times (o_repetitions o) (gen k)) (gen k)) = false ->
    app_always (tolerated Combined) (main absdiff small o G gen) (fun r => r_status r = 0 /\ r_check r = Some false).
  Proof.
    intros Hh Ha Ht Hc Hk Hsm.
    destruct (main_dispatch absdiff small o G gen Combined Hh) as (B&HI&Hsame); [rewrite Ha; set_solver|exact Ht|].
    eapply same_always; [exact Hsame|]. clear Hsame.
    set (A := mat_A o gen) in *. assert (HA : length A = N * N) by apply mat_A_length.
    assert (HB : length B = N * N) by apply HI. cbn [app_always computation].
    pose proof (combined_exact shipped N A B (o_repetitions o) shipped_ok HA HB) as Hm.
    apply (must_tol _ (tolerated Combined)) in Hm; [|by intros l Hl; split].
    eapply must_mono; [|exact Hm]. intros C m HC. cbn in HC. cbn beta.
    assert (HlC : length C = N * N) by apply HC.
    destruct (report_checked absdiff small o gen A B C Hc HA HB (or_intror HlC)) as (ok&Hok&Hal).
    assert (ok = false) as ->.
    { apply not_true_is_false. intros ->. destruct Hok as [Hok _]. destruct (Hok eq_refl) as [_ Hall].
      assert (N <> 0) by (intros HN; rewrite HN in Hk; lia).
      assert (Hi : k / N < N) by (apply Nat.div_lt_upper_bound; lia). assert (Hj : k mod N < N) by (by apply Nat.mod_upper_bound).
      assert (Hpe : k = k / N * N + k mod N) by (rewrite Nat.mul_comm; by apply Nat.div_mod).
      destruct (Hall _ _ Hi Hj) as (c&Hcl&Hcs). destruct HC as [_ HC]. rewrite (HC _ _ Hi Hj) in Hcl. injection Hcl as <-.
      rewrite Ht in Hcs. cbn [pentry] in Hcs. rewrite identity_product in Hcs by done.
      assert (Hg : ent N A (k / N) (k mod N) = gen k).
      { unfold ent. rewrite <- Hpe. unfold A, mat_A. rewrite list_lookup_fmap, lookup_seq_lt by done. done. }
      rewrite Hg in Hcs. congruence. }
    apply app_to_tol. eapply app_always_mono; [|exact Hal]. intros r ->. done.
  Qed.
End CombinedReps.
