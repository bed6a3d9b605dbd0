(** The application: dispatch, the final check, end-to-end correctness. *)
From Verif Require Import Base Conc ConcFacts LoopFacts Tools Num Spec SpecTiled SpecSched MApp SpecApp.
From Verif Require Import PNaive PUtil PRecursive PPseudo PAlgorithms PSemi PTiled PTiled2 PKTest PKTest2 PProposal.

Section Same.
  Context {T : Type} `{NumOps T} {R : Type}.
  Implicit Types a : app T R.

  Lemma always_tol_ret {X : Type} (tol : loc -> Prop) (x : X) (Q : X -> Prop) : always_tol tol (Ret x : prog T X) Q <-> Q x.
  Proof. split; [intros Hm; exact (must_ret_inv _ _ _ _ Hm)|intros Hq; by constructor]. Qed.
  Lemma may_return_ret {X : Type} (x y : X) : may_return (Ret x : prog T X) y <-> x = y.
  Proof.
    split; [|intros ->; exists ∅; constructor].
    intros (m&Hs). inversion Hs as [|? ? ? ? ? ? H1]; subst; [done|]. inversion H1.
  Qed.
  Lemma may_fail_ret {X : Type} (x : X) m e : ~ may_fail (Ret x : prog T X) m e.
  Proof. intros (m'&Hs). inversion Hs as [|? ? ? ? ? ? H1]; subst. inversion H1. Qed.

  Lemma same_refl a : same_behaviour a a.
  Proof. split_and!; done. Qed.
  Lemma same_trans a1 a2 a3 : same_behaviour a1 a2 -> same_behaviour a2 a3 -> same_behaviour a1 a3.
  Proof.
    intros (H1&H2&H3) (H1'&H2'&H3'). split_and!; intros.
    - by rewrite H1. - by rewrite H2. - by rewrite H3.
  Qed.
  Lemma same_ret {X : Type} (x : X) (k : X -> app T R) : same_behaviour (ACall (Ret x) k) (k x).
  Proof.
    split_and!.
    - intros tol Q. exact (always_tol_ret tol x (fun x => app_always tol (k x) Q)).
    - intros out. cbn. split.
      + intros [(y&Hy&He)|(e&He&_)]; [|by apply may_fail_ret in He]. apply may_return_ret in Hy. by subst.
      + intros He. left. exists x. by rewrite may_return_ret.
    - intros E. cbn. pose proof (always_tol_ret (fun _ => False) x (fun x => app_fails E (k x))) as Hi. split.
      + intros [Hf|Ha]; [by apply must_fail_no_ret in Hf|]. by apply Hi.
      + intros Hf. right. by apply Hi.
  Qed.
  Lemma same_when {X : Type} (c : bool) (p : prog T X) x (k : X -> app T R) (d : app T R) : p = Ret x -> k x = d ->
    same_behaviour (if c then ACall p k else d) d.
  Proof. intros -> <-. destruct c; [apply same_ret|apply same_refl]. Qed.
  Lemma always_to_tol {X : Type} (tol : loc -> Prop) (p : prog T X) Q m : must (fun _ => False) Q p m -> must tol Q p m.
  Proof. induction 1; [by constructor|]. apply must_step; [intros l Hl; by apply H0 in Hl|done|done]. Qed.
  Lemma app_always_mono tol a (Q Q' : R -> Prop) : (forall r, Q r -> Q' r) -> app_always tol a Q -> app_always tol a Q'.
  Proof.
    intros HQ. induction a as [r|e|X p k IH]; cbn; [apply HQ|done|].
    apply must_mono. intros x _. apply IH.
  Qed.
End Same.

Section App.
  Context {T : Type} `{NumOps T} (absdiff : T -> T -> T) (small : T -> bool).
  Context (o : options) (G : nat) (gen : nat -> T).
  Notation N := (o_n o).
  Notation main := (main absdiff small o G gen).
  Notation report := (report absdiff small o).
  Definition mat_A : list T := gen <$> seq 0 (N * N).

  Lemma mat_A_length : length mat_A = N * N.
  Proof. unfold mat_A. by rewrite fmap_length, seq_length. Qed.
  Lemma build_B_ok t : exists B, build_B o t = Ret B /\ is_identity (T:=T) N B.
  Proof.
    unfold build_B.
    rewrite (forS_tile2 (N * N) N N (fun i j => (if t then j * N + i else i * N + j, fun _ => if i =? j then none1 else nzero)));
      [|by rewrite replicate_length|].
    - eexists. split; [reflexivity|]. split; [by rewrite length_applyL, replicate_length|].
      intros i j Hi Hj. pose proof (mixed_lt N N i j Hi Hj).
      pose proof (tile2_lookup_in N N (fun i j => (if t then j * N + i else i * N + j, fun _ : T => if i =? j then none1 else nzero))
        (replicate (N * N) nzero) nzero (if t then j else i) (if t then i else j)) as Hl.
      cbn [fst snd] in Hl. destruct t.
      + rewrite Hl; [|done|done| |by apply lookup_replicate_2].
        * f_equal. destruct (Nat.eqb_spec j i), (decide (i = j)); congruence.
        * intros i' k' ? ? E. apply mixed_inj in E; lia.
      + rewrite Hl; [|done|done| |by apply lookup_replicate_2].
        * f_equal. destruct (Nat.eqb_spec i j), (decide (i = j)); congruence.
        * intros i' k' ? ? E. apply mixed_inj in E; lia.
    - intros x k s Hx Hk Hs. rewrite vset_at_ok; [done|]. rewrite Hs. destruct t; apply mixed_lt; lia.
  Qed.
  Lemma print_sq_ok (m : list T) : length m = N * N -> exists x, print_matrix_sq N m = Ret x.
  Proof. intros Hm. eexists. apply (print_host_ok N N m Hm). Qed.
  Lemma print_t_ok (m : list T) : length m = N * N -> exists x, print_matrix_transposed_sq N m = Ret x.
  Proof.
    intros Hm. exists (grid_lines N N (fun i j => ent N m j i)). apply print_grid_ok. intros i j Hi Hj. by apply ent_lookup_sq.
  Qed.

  (** main up to the point where the algorithm is chosen *)
  Definition chosen (B : list T) : app T (outcome T) :=
    abind (hpx_dispatch o G mat_A B) (fun g =>
      let after C :=
        let g' := Globals (g_A g) (g_B g) C (g_non_hpx g) (g_is_root g) in
        if 2 <=? o_verbose o then ACall (print_matrix_sq N C) (fun _ => finish absdiff small o g') else finish absdiff small o g' in
      if (o_algorithm o =? "kernel_test")%string then
        ACall (kernel_test_matrix_multiply kt_shipped kt_padding N (g_A g) (g_B g) (o_transposed o) (o_repetitions o)) after
      else if (o_algorithm o =? "kernel_tiled")%string then
        ACall (kernel_tiled_matrix_multiply shipped N (g_A g) (g_B g) (o_transposed o) (o_repetitions o)) after
      else if g_non_hpx g then ADone (Outcome 1 true None (g_C g))
      else finish absdiff small o g).
  Lemma main_chosen : o_help o = false -> exists B, is_identity N B /\ same_behaviour main (chosen B).
  Proof.
    intros Hh. destruct (build_B_ok (o_transposed o)) as (B&HB&HI). exists B. split; [done|].
    assert (HlB : length B = N * N) by apply HI.
    destruct (print_sq_ok mat_A mat_A_length) as (xA&HxA).
    assert (exists xB, (if negb (o_transposed o) then print_matrix_sq N B else print_matrix_transposed_sq N B) = Ret xB) as (xB&HxB).
    { destruct (o_transposed o); cbn [negb]; [by apply print_t_ok|by apply print_sq_ok]. }
    unfold MApp.main, hpx_main. rewrite Hh. fold mat_A. rewrite HxA, HB. unfold when.
    destruct (2 <=? o_verbose o) eqn:Hv; cbn [abind].
    - eapply same_trans; [apply same_ret|]. eapply same_trans; [apply same_ret|]. cbn [abind]. rewrite HxB.
      eapply same_trans; [apply same_ret|]. unfold chosen. rewrite Hv. apply same_refl.
    - eapply same_trans; [apply same_ret|]. unfold chosen. rewrite Hv. apply same_refl.
  Qed.

  Lemma app_single_eq (A B : list T) : app_single o A B = computation o G Single A B.
  Proof.
    unfold app_single, computation, single_matrix_multiply. destruct (Nat.eqb_spec (o_repetitions o) 0) as [->|Hr]; [done|].
    rewrite !forS_step by lia. rewrite !rng_1, Nat.sub_0_r. destruct (o_repetitions o) as [|r]; [done|]. reflexivity.
  Qed.

  Lemma chosen_accepted v B : (o_algorithm o, v) ∈ accepted -> flag_ok o v ->
    same_behaviour (chosen B) (ACall (computation o G v mat_A B) (report mat_A B)).
  Proof.
    intros Hin Hf.
    assert (He : chosen B = ACall (computation o G v mat_A B) (report mat_A B)); [|rewrite He; apply same_refl].
    unfold chosen, hpx_dispatch, SpecApp.report. rewrite app_single_eq. unfold hpx_end, when.
    unfold accepted in Hin. rewrite !elem_of_cons, elem_of_nil in Hin.
    unfold flag_ok in Hf.
    destruct Hin as [[= Hn ->]|[[= Hn ->]|[[= Hn ->]|[[= Hn ->]|[[= Hn ->]|[[= Hn ->]|[[= Hn ->]|[[= Hn ->]|[[= Hn ->]|[]]]]]]]]]];
      rewrite Hn in *; cbn [requires_transposed] in Hf; cbn -[finish print_matrix_sq Nat.leb computation]; try rewrite Hf;
      destruct (2 <=? o_verbose o); reflexivity.
  Qed.

  Lemma same_always (a a' : app T (outcome T)) tol Q : same_behaviour a a' -> app_always tol a' Q -> app_always tol a Q.
  Proof. intros (H1&_&_). apply H1. Qed.
  Lemma same_fails (a a' : app T (outcome T)) E : same_behaviour a a' -> app_fails E a' -> app_fails E a.
  Proof. intros (_&_&H3). apply H3. Qed.

  Lemma main_dispatch v : o_help o = false -> (o_algorithm o, v) ∈ accepted -> flag_ok o v ->
    exists B, is_identity N B /\ same_behaviour main (ACall (computation o G v mat_A B) (report mat_A B)).
  Proof.
    intros Hh Hin Hf. destruct (main_chosen Hh) as (B&HI&Hs). exists B. split; [done|].
    eapply same_trans; [exact Hs|]. by apply chosen_accepted.
  Qed.
  Lemma main_wrong_flag v : o_help o = false -> (o_algorithm o, v) ∈ accepted -> ~ flag_ok o v ->
    app_fails (fun e => e = EException) main.
  Proof.
    intros Hh Hin Hf. destruct (main_chosen Hh) as (B&HI&Hs). eapply same_fails; [exact Hs|]. clear Hs.
    unfold chosen, hpx_dispatch, flag_ok in *.
    unfold accepted in Hin. rewrite !elem_of_cons, elem_of_nil in Hin.
    destruct Hin as [[= Hn ->]|[[= Hn ->]|[[= Hn ->]|[[= Hn ->]|[[= Hn ->]|[[= Hn ->]|[[= Hn ->]|[[= Hn ->]|[[= Hn ->]|[]]]]]]]]]];
      rewrite Hn in *; cbn [requires_transposed] in Hf; try (by destruct Hf); destruct (o_transposed o); try done.
  Qed.
  Lemma main_unknown : o_help o = false -> o_algorithm o ∉ accepted.*1 ->
    app_always (fun _ => False) main (fun r => r = Outcome 1 true None []).
  Proof.
    intros Hh Hin. destruct (main_chosen Hh) as (B&HI&Hs). eapply same_always; [exact Hs|]. clear Hs.
    assert (Hne : forall s, s ∈ accepted.*1 -> (o_algorithm o =? s)%string = false).
    { intros s Hs. apply String.eqb_neq. intros He. apply Hin. by rewrite He. }
    unfold chosen, hpx_dispatch.
    rewrite !Hne by (cbn; rewrite !elem_of_cons; tauto). reflexivity.
  Qed.
  Lemma main_help : o_help o = true -> o_algorithm o <> "kernel_test"%string -> o_algorithm o <> "kernel_tiled"%string ->
    main = ADone (Outcome 0 false None []).
  Proof.
    intros Hh H1 H2. unfold MApp.main, hpx_main. rewrite Hh. cbn [abind].
    destruct (String.eqb_spec (o_algorithm o) "kernel_test") as [He|_]; [done|].
    destruct (String.eqb_spec (o_algorithm o) "kernel_tiled") as [He|_]; [done|]. reflexivity.
  Qed.

  (** * The final check *)
  Lemma reference_ok (A B : list T) : length A = N * N -> length B = N * N ->
    exists Cref, is_matrix N (pentry (o_transposed o) N A B) Cref /\
      always (if negb (o_transposed o) then naive_matrix_multiply N A B else naive_matrix_multiply_transposed N A B) (fun C => C = Cref).
  Proof.
    intros HA HB. destruct (is_matrix_exists N (pentry (o_transposed o) N A B)) as (Cref&HC). exists Cref. split; [done|].
    destruct (o_transposed o); cbn [negb].
    - eapply must_mono; [|by apply naive_transposed_correct]. intros C ? HC'. cbn in *. by eapply is_matrix_unique.
    - eapply must_mono; [|by apply naive_correct]. intros C ? HC'. cbn in *. by eapply is_matrix_unique.
  Qed.
  Lemma equal_results_verdict f (C Cref : list T) : is_matrix N f Cref ->
    is_verdict (fun x y => small (absdiff x y) = true) N f C (equal_results absdiff small C Cref).
  Proof.
    intros [Hl Hf]. unfold is_verdict, equal_results. rewrite andb_true_iff, Nat.eqb_eq, forallb_forall, Hl. split.
    - intros [HC Hall]. split; [done|]. intros i j Hi Hj. pose proof (mixed_lt N N i j Hi Hj).
      destruct (lookup_lt_is_Some_2 C (i * N + j)) as [c Hc]; [lia|]. exists c. split; [done|].
      apply (Hall (c, f i j)). apply elem_of_list_In, elem_of_list_lookup. exists (i * N + j).
      rewrite lookup_zip_with, Hc. cbn. by rewrite Hf.
    - intros [HC Hall]. split; [done|]. intros [c r] Hin. apply elem_of_list_In, elem_of_list_lookup in Hin as (p&Hp).
      rewrite lookup_zip_with in Hp. destruct (C !! p) as [c'|] eqn:Ec; [|done]. cbn in Hp.
      destruct (Cref !! p) as [r'|] eqn:Er; [|done]. injection Hp as -> ->. cbn.
      apply lookup_lt_Some in Ec as Hlt. rewrite HC in Hlt. assert (N <> 0) by (intros HN; rewrite HN in Hlt; lia).
      assert (Hi : p / N < N) by (apply Nat.div_lt_upper_bound; lia). assert (Hj : p mod N < N) by (by apply Nat.mod_upper_bound).
      assert (Hpe : p = p / N * N + p mod N) by (rewrite Nat.mul_comm; by apply Nat.div_mod).
      destruct (Hall _ _ Hi Hj) as (c''&Hc''&Hsm). rewrite <- Hpe in Hc''. rewrite Ec in Hc''. injection Hc'' as <-.
      pose proof (Hf _ _ Hi Hj) as Hr. rewrite <- Hpe, Er in Hr. injection Hr as ->. done.
  Qed.
  Lemma diff_matrix_ok (C Cref : list T) : length C = N * N -> length Cref = N * N ->
    exists D, diff_matrix absdiff o C Cref = Ret D /\ length D = N * N.
  Proof.
    intros HC HR. unfold diff_matrix. rewrite forS_step by lia. rewrite rng_1, Nat.sub_0_r.
    enough (He : forall l D, (forall k, k ∈ l -> k < N * N) -> length D = N * N -> exists D',
      foldP l (fun k diff => let! r := vat Cref k in let! c := vat C k in vset_at diff k (absdiff r c)) D = Ret D' /\ length D' = N * N).
    { apply He; [intros k Hk%elem_of_seq; lia|by rewrite replicate_length]. }
    induction l as [|k l IH]; intros D Hk HD; [by eexists|]. cbn [foldP].
    assert (Hkl : k < N * N) by (apply Hk; set_solver).
    destruct (lookup_lt_is_Some_2 Cref k) as [r Hr]; [lia|]. destruct (lookup_lt_is_Some_2 C k) as [c Hc]; [lia|].
    rewrite (vat_lookup _ _ _ Hr). cbn [pbind]. rewrite (vat_lookup _ _ _ Hc). cbn [pbind].
    rewrite vset_at_ok by lia. cbn [pbind]. apply IH; [set_solver|]. rewrite length_applyL. done.
  Qed.

  (** The check, with output at any verbosity if C has the right size. *)
  Lemma finish_checked (A B C : list T) nh : o_check o = true -> length A = N * N -> length B = N * N ->
    o_verbose o < 2 \/ length C = N * N ->
    exists ok, is_verdict (fun x y => small (absdiff x y) = true) N (pentry (o_transposed o) N A B) C ok /\
      app_always (fun _ => False) (finish absdiff small o (Globals A B C nh true)) (fun r => r = Outcome 0 false (Some ok) C).
  Proof.
    intros Hc HA HB Hv. destruct (reference_ok A B HA HB) as (Cref&HR&Hal).
    exists (equal_results absdiff small C Cref). split; [by apply equal_results_verdict|].
    unfold finish. cbn [g_A g_B g_C g_is_root]. rewrite Hc. cbn [andb app_always].
    eapply must_mono; [|exact Hal]. intros C' ? ->. cbn -[Nat.leb print_matrix_sq diff_matrix equal_results].
    destruct (Nat.leb_spec 2 (o_verbose o)) as [H2|H2]; [|done].
    destruct Hv as [Hv|HC]; [lia|].
    assert (HlR : length Cref = N * N) by apply HR.
    destruct (print_sq_ok Cref HlR) as (x&->). destruct (diff_matrix_ok C Cref HC HlR) as (D&->&HD).
    destruct (print_sq_ok D HD) as (y&Hy). cbn [app_always].
    apply always_tol_ret, always_tol_ret. cbn [app_always]. rewrite Hy. by apply always_tol_ret.
  Qed.
  Lemma finish_unchecked (g : globals T) : o_check o = false \/ g_is_root g = false ->
    finish absdiff small o g = ADone (Outcome 0 false None (g_C g)).
  Proof. intros [Hc|Hc]; unfold finish; rewrite Hc; [by rewrite andb_false_r|done]. Qed.
  Lemma report_checked (A B C : list T) : o_check o = true -> length A = N * N -> length B = N * N ->
    o_verbose o < 2 \/ length C = N * N ->
    exists ok, is_verdict (fun x y => small (absdiff x y) = true) N (pentry (o_transposed o) N A B) C ok /\
      app_always (fun _ => False) (report A B C) (fun r => r = Outcome 0 false (Some ok) C).
  Proof.
    intros Hc HA HB Hv. destruct (finish_checked A B C false Hc HA HB Hv) as (ok&Hok&Ha). exists ok. split; [done|].
    unfold SpecApp.report. destruct (Nat.leb_spec 2 (o_verbose o)) as [H2|H2]; [|exact Ha].
    destruct Hv as [Hv|HC]; [lia|]. destruct (print_sq_ok C HC) as (x&->). by apply always_tol_ret.
  Qed.
  (** A result that is too short is not reported but ends in an exception when
      it is printed. *)
  Lemma report_short (A B C : list T) : 2 <= o_verbose o -> length C < N * N ->
    app_fails (fun e => e = EOutOfRange) (report A B C).
  Proof.
    intros Hv HC. unfold SpecApp.report. destruct (Nat.leb_spec 2 (o_verbose o)) as [H2|H2]; [|lia]. left.
    unfold print_matrix_sq. assert (N <> 0) by (intros HN; rewrite HN in HC; lia).
    rewrite (print_grid_fails _ _ _ _ (N - 1) (N - 1)); [by constructor|lia|lia|].
    assert ((N - 1) * N + (N - 1) = N * N - 1) by nia. lia.
  Qed.
End App.
