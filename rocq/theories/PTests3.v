(** What passing the relative checks and the checks with 1E-5 certifies. *)
From Coq Require Import ZArith Reals String Psatz.
From Flocq Require Import Core IEEE754.Binary IEEE754.Bits.
From Verif Require Import Base Conc ConcFacts Num Spec SpecTiled SpecSched SpecContract MCeil PCeil MDouble PDouble SpecApp SpecRound PRound PRound2 MContract PContract PContract2 PContract3 Tools PNaive PUtil PRecursive PPseudo PPseudo2 PAlgorithms PSemi PLooped Tools2 PTiled PTiled5 POne PApp SpecExact PExact64 PKTest2 PProposal PApp2 MTests SpecTests PTests1 PTests2 SpecTests3.
Local Open Scope nat_scope.

(** ** The checks *)
Definition frac10 : binary64 := B754_finite 53 1024 false 4951760157141521 (-92) eq_refl.
Lemma frac10_eq : nmul (double_literal (Dec 1 10)) (double_literal (Dec 1 2)) = frac10.
Proof. apply B2FF_inj. vm_compute. reflexivity. Qed.
Definition tol12 : binary64 := B754_finite 53 1024 false 4951760157141522 (-92) eq_refl.
Lemma tol12_val : (val64 tol12 <= 2 / 10 ^ 12)%R.
Proof.
  unfold tol12, B2R, F2R. cbn [Fnum Fexp cond_Zopp Defs.Fnum Defs.Fexp]. rewrite (bp 92). change (2 ^ 92)%Z with 4951760157141521099596496896%Z.
  simpl. lra.
Qed.
Lemma abs_zero : b64_abs (double_of 0) = nzero.
Proof. apply B2FF_inj. vm_compute. reflexivity. Qed.
Lemma abs_one : b64_abs (double_of 1) = none1.
Proof. apply B2FF_inj. vm_compute. reflexivity. Qed.
Lemma zero_max : nmul (nzero : binary64) max64 = nzero.
Proof. apply B2FF_inj. vm_compute. reflexivity. Qed.
Lemma max_not_small : le64 max64 frac10 = false.
Proof. vm_compute. reflexivity. Qed.
Lemma one_not_below : lt64 none1 none1 = false.
Proof. vm_compute. reflexivity. Qed.
Lemma zero_below_one : lt64 nzero none1 = true.
Proof. vm_compute. reflexivity. Qed.
Lemma one_not_below_zero : lt64 none1 nzero = false.
Proof. vm_compute. reflexivity. Qed.
Lemma absdiff_shape x y : (exists t pl Hpl, absdiff64 x y = B754_nan 53 1024 t pl Hpl) \/ is_nan 53 1024 (absdiff64 x y) = false /\ Bsign 53 1024 (absdiff64 x y) = false.
Proof.
  unfold absdiff64. destruct (b64_minus rne x y) as [s|s|s pl Hpl|s m e He]; [right; done|right; done| |right; done].
  left. destruct (b64_abs (B754_nan 53 1024 s pl Hpl)) as [t|t|t pl' Hpl'|t m e He] eqn:E; try (pose proof (abs_nan_is_nan (B754_nan 53 1024 s pl Hpl) eq_refl) as H; rewrite E in H; done).
  by exists t, pl', Hpl'.
Qed.
Lemma close_zero x : check_close (double_literal (Dec 1 10)) x (double_of 0) = true -> finite64 x = true /\ val64 x = 0%R.
Proof.
  unfold check_close. rewrite frac10_eq, abs_zero. intros [H _]%andb_prop. unfold safe_division in H. rewrite zero_max, zero_below_one, one_not_below_zero in H.
  assert (Hd : exists s, b64_minus rne x (double_of 0) = B754_zero 53 1024 s).
  { pose proof (absdiff_shape x (double_of 0)) as Hsh. unfold absdiff64 in *. destruct (b64_minus rne x (double_of 0)) as [s|s|s pl Hpl|s m e He]; [eauto|..]; exfalso.
    - change (b64_abs (B754_infinity 53 1024 s)) with (B754_infinity 53 1024 false) in H.
      change (lt64 nzero (B754_infinity 53 1024 false)) with true in H. cbn [andb] in H. by rewrite max_not_small in H.
    - destruct Hsh as [(t&pl'&Hpl'&E)|[E _]]; [|by rewrite abs_nan_is_nan in E]. rewrite E in H. discriminate H.
    - change (b64_abs (B754_finite 53 1024 s m e He)) with (B754_finite 53 1024 false m e He) in H.
      change (lt64 nzero (B754_finite 53 1024 false m e He)) with true in H. cbn [andb] in H. by rewrite max_not_small in H. }
  destruct Hd as [s Hd]. assert (Hf : finite64 (b64_minus rne x (double_of 0)) = true) by by rewrite Hd.
  destruct (minus_finite _ _ Hf) as [Hx Hy]. split; [done|].
  pose proof (Bminus_correct 53 1024 eq_refl eq_refl binop_nan_pl64 rne x (double_of 0) Hx Hy) as Hm.
  change (Bminus 53 1024 _ _ binop_nan_pl64 rne) with (b64_minus rne) in Hm. rewrite Hd in Hm.
  assert (E0 : val64 (double_of 0) = 0%R) by (by change (double_of 0) with (nzero : binary64)).
  rewrite E0, Rminus_0_r in Hm. destruct (Rlt_bool _ _); [|by destruct Hm].
  destruct Hm as (Hv&_). rewrite (round_generic radix2 _ _ (val64 x)) in Hv; [by rewrite <- Hv|]. apply generic_format_B2R.
Qed.
Lemma le_lt_frac d : finite64 d = true -> le64 d frac10 = true -> (val64 d < val64 tol12)%R.
Proof.
  intros Hd H. unfold le64, b64_compare in H. rewrite Bcompare_correct in H by done.
  assert (Hlt : (val64 frac10 < val64 tol12)%R).
  { unfold frac10, tol12, B2R, F2R. cbn [Fnum Fexp cond_Zopp Defs.Fnum Defs.Fexp]. apply Rmult_lt_compat_r; [apply bpow_gt_0|]. apply IZR_lt. lia. }
  destruct (Rcompare_spec (val64 d) (val64 frac10)); [lra|lra|done].
Qed.
Lemma one_val : val64 none1 = 1%R.
Proof. apply one_value. Qed.
Lemma div_one d : finite64 d = true -> finite64 (b64_div rne d none1) = true /\ val64 (b64_div rne d none1) = val64 d.
Proof.
  intros Hd. pose proof (Bdiv_correct 53 1024 eq_refl eq_refl binop_nan_pl64 rne d none1) as Hc.
  change (Bdiv 53 1024 _ _ binop_nan_pl64 rne) with (b64_div rne) in Hc.
  specialize (Hc ltac:(change (B2R 53 1024 none1 <> 0%R); rewrite one_val; lra)).
  change (B2R 53 1024 none1) with (val64 none1) in Hc. rewrite one_val in Hc. unfold Rdiv in Hc. rewrite Rinv_1, Rmult_1_r in Hc.
  rewrite (round_generic radix2 _ _ (val64 d)) in Hc; [|apply generic_format_B2R].
  rewrite Rlt_bool_true in Hc by apply abs_B2R_lt_emax. destruct Hc as (Hv&Hf&_). split; [exact (eq_trans Hf Hd)|exact Hv].
Qed.
Lemma close_one x : check_close (double_literal (Dec 1 10)) x (double_of 1) = true -> finite64 x = true /\ (Rabs (val64 x - 1) < val64 tol12)%R.
Proof.
  unfold check_close. rewrite frac10_eq, abs_one. intros [H _]%andb_prop. unfold safe_division in H. rewrite one_not_below in H. cbn [andb] in H.
  rewrite orb_false_r in H.
  assert (Hd : finite64 (absdiff64 x (double_of 1)) = true /\ (val64 (absdiff64 x (double_of 1)) < val64 tol12)%R).
  { pose proof (absdiff_shape x (double_of 1)) as Hsh. set (d := absdiff64 x (double_of 1)) in *. clearbody d.
    destruct (finite64 d) eqn:Hf.
    - split; [done|]. destruct (eq64 d nzero) eqn:E0.
      + unfold eq64, b64_compare in E0. rewrite Bcompare_correct in E0 by done. match type of E0 with context [Rcompare ?p ?q] => destruct (Rcompare p q) eqn:Ed in E0; [|discriminate E0|discriminate E0]; apply Rcompare_Eq_inv in Ed end.
        rewrite Ed. unfold tol12, B2R, F2R. cbn [Fnum Fexp cond_Zopp Defs.Fnum Defs.Fexp]. cbn [nzero]. apply Rmult_lt_0_compat; [apply IZR_lt; lia|apply bpow_gt_0].
      + destruct (div_one d Hf) as [H1 H2]. rewrite <- H2. by apply le_lt_frac.
    - exfalso. destruct Hsh as [(t&pl'&Hpl'&E)|[E Es]].
      + rewrite E in H. discriminate H.
      + destruct d as [s|s|s pl Hpl|s m e He]; try done. cbn [Bsign] in Es. subst s. discriminate H. }
  destruct Hd as [Hf Hlt]. rewrite <- one_value. refine (small_above tol12 x (double_of 1) eq_refl _).
  unfold check_small, lt64, b64_compare. rewrite Bcompare_correct; [|unfold b64_abs; by rewrite is_finite_Babs|done].
  unfold b64_abs at 1. rewrite B2R_Babs. unfold absdiff64, b64_abs in *. rewrite B2R_Babs in *. rewrite Rabs_Rabsolu. by rewrite Rcompare_Lt.
Qed.

(** ** The cases *)
Section Certify.
  Context (gen : nat -> binary64) (Hgen : unit_draws gen) (c : test_case).
  Notation N := (c_N c).
  Notation tr := (c_transposed c).
  Lemma certified_reference mult A B : c ∈ all_cases -> ~ two_by_two_semi c ->
    length A = N * N -> length B = N * N -> stored gen N (c_A c) A -> stored gen N (c_B c) B -> passes gen mult c ->
    app_always (race c) (mult c (TNum <$> A) (TNum <$> B)) (fun D => exists R, (match c_ref c with
      | Ref_identity => is_identity N R
      | Ref_naive => is_matrix N (entry_in tr Straight N (TNum <$> A) (TNum <$> B)) R
      | Ref_A => R = TNum <$> A
      end) /\ forall C C', Forall2 compiled D C -> Forall2 compiled R C' -> all_checks_pass c C C').
  Proof.
    intros Hc Hn HA HB HsA HsB Hp. destruct (all_good c Hc Hn) as [Hs Hd]. destruct (data_lengths c Hd) as [HlA HlB].
    unfold passes, run_case in Hp. fold (race c) in Hp.
    assert (Hfrom : forall s M k (Q : list term * list term -> Prop), right_length N s -> length M = N * N -> stored gen N s M ->
      app_always (race c) (abind (matrix_from gen N s) k) Q -> app_always (race c) (k (TNum <$> M)) Q).
    { intros s M k Q Hl HM HsM H. apply app_always_bind in H. destruct s as [l|l|]; cbn [stored matrix_from app_always right_length] in *.
      - subst M. by rewrite <- list_fmap_compose.
      - destruct (transpose_rect_correct N N (TNum <$> (double_literal <$> l))) as (R&ER&HR); [by rewrite !fmap_length|].
        rewrite list_fmap_compose, transpose_sq_rect, ER in H. apply always_tol_ret in H.
        assert (R = TNum <$> M) as <-; [|done]. eapply is_transpose_unique; [exact HR|]. destruct HsM as [HM1 HM2]. split; [by rewrite fmap_length|].
        intros i j Hi Hj. rewrite (list_lookup_fmap TNum M), (list_lookup_fmap TNum (double_literal <$> l)), HM2 by done. done.
      - subst M. by rewrite <- list_fmap_compose. }
    apply (Hfrom _ A) in Hp; [|done..]. apply (Hfrom _ B) in Hp; [|done..]. apply app_always_bind in Hp.
    eapply app_always_mono; [|exact Hp]. intros D HD. cbn beta in HD. apply app_always_bind in HD.
    pose proof (reference_ok c A B (fun _ => False) HA HB) as Href.
    unfold reference_of in *. destruct (c_ref c); cbn [app_always fst snd] in *.
    - destruct (always_both _ _ _ _ HD Href) as (R&H1&H2). by exists R.
    - destruct (always_both _ _ _ _ HD Href) as (R&H1&H2). by exists R.
    - by exists (TNum <$> A).
  Qed.
  Lemma certified5 mult A B : c ∈ all_cases -> ~ two_by_two_semi c -> c_check c = Check_small (Dec 1 5) ->
    length A = N * N -> length B = N * N -> stored gen N (c_A c) A -> stored gen N (c_B c) B -> passes gen mult c ->
    app_always (race c) (mult c (TNum <$> A) (TNum <$> B)) (fun D => forall C, Forall2 compiled D C -> forall i j, i < N -> j < N ->
      exists x, C !! (i * N + j) = Some x /\ finite64 x = true /\ (Rabs (val64 x - exact_entry tr N A B i j) <= 2 / 10 ^ 5)%R).
  Proof.
    intros Hc Hn Hk HA HB HsA HsB Hp. destruct (all_good c Hc Hn) as [Hs Hd].
    eapply app_always_mono; [|exact (certified_reference mult A B Hc Hn HA HB HsA HsB Hp)]. intros D (R&HR&Hall) C HC i j Hi Hj.
    destruct (compiled_some R) as [C' HC']. specialize (Hall C C' HC HC' (i * N + j) ltac:(nia)).
    destruct Hall as (x&y&Hx&Hy&Hch). rewrite Hk in Hch. cbn [check_entry] in Hch.
    destruct (reference_near gen Hgen c A B R Hs Hd HA HB HsA HsB HR C' HC' i j Hi Hj) as (y'&Hy'&Hyn). assert (E : Some y = Some y') by (etransitivity; [symmetry; exact Hy|exact Hy']). injection E as <-.
    apply small_above in Hch as [Hf Hlt]; [|apply tol5]. exists x. split; [done|]. split; [done|].
    assert (Ht : (val64 (double_literal (Dec 1 5)) <= 11 / 10 ^ 6)%R).
    { assert (E : double_literal (Dec 1 5) = B754_finite 53 1024 false 5902958103587057 (-69) eq_refl) by (apply B2FF_inj; vm_compute; reflexivity).
      rewrite E. unfold B2R, F2R. cbn [Fnum Fexp cond_Zopp Defs.Fnum Defs.Fexp]. rewrite (bp 69). change (2 ^ 69)%Z with 590295810358705651712%Z. simpl. lra. }
    assert (He : (eps <= 8 / 10 ^ 9)%R) by (unfold eps; rewrite (bp 27); change (2 ^ 27)%Z with 134217728%Z; simpl; lra).
    set (t := val64 (double_literal (Dec 1 5))) in *. clearbody t. set (e := exact_entry tr N A B i j) in *. clearbody e.
    replace (val64 x - e)%R with ((val64 x - val64 y) + (val64 y - e))%R by lra.
    eapply Rle_trans; [apply Rabs_triang|]. simpl in *. lra.
  Qed.
  Lemma certified_close mult A B : c ∈ all_cases -> ~ two_by_two_semi c -> c_check c = Check_close (Dec 1 10) ->
    length A = N * N -> length B = N * N -> stored gen N (c_A c) A -> stored gen N (c_B c) B -> passes gen mult c ->
    app_always (race c) (mult c (TNum <$> A) (TNum <$> B)) (fun D => forall C, Forall2 compiled D C -> forall i j, i < N -> j < N ->
      exists x, C !! (i * N + j) = Some x /\ finite64 x = true /\ (Rabs (val64 x - exact_entry tr N A B i j) <= 2 / 10 ^ 12)%R /\
        (exact_entry tr N A B i j = 0%R -> val64 x = 0%R)).
  Proof.
    intros Hc Hn Hk HA HB HsA HsB Hp. destruct (all_good c Hc Hn) as [Hs Hd].
    eapply app_always_mono; [|exact (certified_reference mult A B Hc Hn HA HB HsA HsB Hp)]. intros D (R&HR&Hall) C HC i j Hi Hj.
    destruct (compiled_some R) as [C' HC']. specialize (Hall C C' HC HC' (i * N + j) ltac:(nia)).
    destruct Hall as (x&y&Hx&Hy&Hch). rewrite Hk in Hch. cbn [check_entry] in Hch. exists x. split; [done|].
    destruct Hd as [EA EB Er Hk'|la lb EA EB Hinv Er HN Hk']; [rewrite Hk in Hk'; by destruct Hk'|].
    destruct Hk' as [Hk'|(_&HiA&HiB)]; [rewrite Hk in Hk'; by destruct Hk'|].
    rewrite EA in HsA. rewrite EB in HsB. rewrite Er in HR.
    apply inverse_pair_facts in Hinv as (HlX&HlY&H8A&H8B&Hn1&Hn2). cbn [stored] in HsA.
    assert (HBin : forall x, x ∈ B -> x ∈ double_literal <$> lb).
    { destruct tr; cbn [stored] in HsB; [intros z; by eapply transposed_in|by subst B]. }
    assert (Hnear : near_identity tr N A B).
    { destruct tr; cbn [stored] in HsB; rewrite HsA; [eapply near_right; [exact HlY|exact HsB|exact Hn1]|rewrite HsB; exact Hn1]. }
    assert (HiA' : integral A) by (rewrite HsA; by apply integers_integral).
    assert (HiB' : integral B) by (intros z Hz; by apply (integers_integral _ HiB), HBin).
    assert (Hex : exact_entry tr N A B i j = delta i j).
    { assert (HB8 : within8 B) by (intros z Hz; by apply H8B, HBin). assert (HA8 : within8 A) by by rewrite HsA.
      assert (Hm : (magnitude tr N A B i j <= bpow radix2 53)%R).
      { eapply Rle_trans; [eapply magnitude512; eassumption|]. change 512%R with (bpow radix2 9). apply bpow_le. lia. }
      destruct (compiled_exact N A B i j tr HA HB Hi Hj HiA' HiB' Hm Straight _ I (separate_compiled _)) as (z&He&_&_).
      pose proof (Hnear i j Hi Hj) as H3. rewrite He in *.
      assert (E : delta i j = IZR (if decide (i = j) then 1 else 0)) by (unfold delta; by destruct (decide _)).
      rewrite E, <- minus_IZR, abs_IZR in H3.
      assert (H4 : (IZR (Z.abs (z - (if decide (i = j) then 1 else 0))) < 1)%R).
      { eapply Rle_lt_trans; [exact H3|]. change 1%R with (bpow radix2 0). apply bpow_lt. lia. }
      apply (lt_IZR _ 1) in H4. rewrite E. f_equal. lia. }
    destruct (compiled_entry N _ _ _ i j HR HC' Hi Hj) as (y'&Hy'&Hcy). assert (E : Some y = Some y') by (etransitivity; [symmetry; exact Hy|exact Hy']). injection E as <-.
    cbn beta in Hcy. rewrite Hex. unfold delta. pose proof tol12_val as Ht. destruct (decide (i = j)) as [_|_].
    - apply compiled_leaf in Hcy as ->. apply close_one in Hch as [Hf Hlt]. split; [done|]. split; [lra|]. intros; lra.
    - assert (Ey : y = double_of 0) by (by apply compiled_leaf in Hcy). subst y. apply close_zero in Hch as [Hf ->].
      split; [done|]. split; [|done]. rewrite Rminus_0_r, Rabs_R0. simpl. lra.
  Qed.
End Certify.

Lemma names_counted : ((fun c => (c_suite c, c_name c)) <$> all_cases) = registered_names /\ length registered_names = 76 /\ NoDup registered_names.
Proof.
  split; [vm_compute; reflexivity|]. split; [vm_compute; reflexivity|].
  apply (bool_decide_unpack _). vm_compute. exact I.
Qed.
Lemma semi_cases c : c ∈ all_cases -> (two_by_two_semi c <-> c_suite c = "semi"%string /\ c_name c ∈ ["identity_2"; "apply_inverse_2"; "random_matrices_2"]%string).
Proof.
  intros Hc. unfold two_by_two_semi. apply elem_of_list_In in Hc.
  assert (H : Forall (fun c => bool_decide (c_algorithm c = "semi"%string /\ c_N c = 2) = bool_decide (c_suite c = "semi"%string /\ c_name c ∈ ["identity_2"; "apply_inverse_2"; "random_matrices_2"]%string)) all_cases).
  { unfold all_cases. rewrite !Forall_app. repeat split; unfold suite_algorithms, suite_combined, suite_looped, suite_pseudodynamic, suite_semi, suite_single, suite_naive; repeat (apply Forall_cons; split; [vm_compute; reflexivity|]); by apply Forall_nil. }
  rewrite Forall_forall in H. specialize (H c ltac:(by apply elem_of_list_In)). match type of H with bool_decide ?p = bool_decide ?q => destruct (bool_decide_reflect p) as [Hq|Hq], (bool_decide_reflect q) as [Hr|Hr]; try discriminate H; by split end.
Qed.
Lemma precision_known c : c ∈ all_cases -> exists d, precision (c_check c) d.
Proof.
  intros Hc. assert (H : Forall (fun c => exists d, precision (c_check c) d) all_cases).
  { unfold all_cases. rewrite !Forall_app. repeat split; unfold suite_algorithms, suite_combined, suite_looped, suite_pseudodynamic, suite_semi, suite_single, suite_naive; repeat (apply Forall_cons; split; [cbn [c_check]; eexists; constructor|]); by apply Forall_nil. }
  rewrite Forall_forall in H. by apply H.
Qed.
Lemma certified_all gen (Hgen : unit_draws gen) c mult A B d : c ∈ all_cases -> ~ two_by_two_semi c -> precision (c_check c) d ->
  length A = c_N c * c_N c -> length B = c_N c * c_N c -> stored gen (c_N c) (c_A c) A -> stored gen (c_N c) (c_B c) B -> passes gen mult c ->
  app_always (race c) (mult c (TNum <$> A) (TNum <$> B)) (fun D => forall C, Forall2 compiled D C -> forall i j, i < c_N c -> j < c_N c ->
    exists x, C !! (i * c_N c + j) = Some x /\ finite64 x = true /\ (Rabs (val64 x - exact_entry (c_transposed c) (c_N c) A B i j) <= d)%R).
Proof.
  intros Hc Hn Hd HA HB HsA HsB Hp. remember (c_check c) as k eqn:Hk. symmetry in Hk. destruct Hd.
  - by eapply certified.
  - by eapply certified5.
  - eapply app_always_mono; [|eapply certified_close; eassumption]. intros D HD C HC i j Hi Hj.
    destruct (HD C HC i j Hi Hj) as (x&H1&H2&H3&_). by exists x.
Qed.
Lemma transpose_square_involutive {T} `{NumOps T} N (M : list T) : length M = N * N ->
  (let! R := transpose_matrix N M in transpose_matrix N R) = Ret M.
Proof.
  exact (transpose_rect_involutive N N M).
Qed.
