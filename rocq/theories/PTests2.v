(** Every test case passes, except the 2x2 cases of semi. *)
From Coq Require Import ZArith Reals String Psatz.
From Flocq Require Import Core IEEE754.Binary IEEE754.Bits.
From Verif Require Import Base Conc ConcFacts Num Spec SpecTiled SpecSched SpecContract MCeil PCeil MDouble PDouble SpecApp SpecRound PRound PRound2 MContract PContract PContract2 PContract3 Tools PNaive PUtil PRecursive PPseudo PPseudo2 PAlgorithms PSemi PLooped Tools2 PTiled PTiled5 POne PApp SpecExact PExact64 PKTest2 PProposal PApp2 MTests SpecTests PTests1.
Local Open Scope nat_scope.

Lemma app_always_bind {T R S} tol (a : app T R) (f : R -> app T S) Q :
  app_always tol (abind a f) Q <-> app_always tol a (fun r => app_always tol (f r) Q).
Proof.
  induction a as [r|e|X p k IH]; cbn; [done|done|]. unfold always_tol. split; intros H; (eapply must_mono; [|exact H]); intros x m; apply IH.
Qed.
Lemma app_fails_bind {T R S} E (a : app T R) (f : R -> app T S) (P : R -> Prop) :
  app_always (fun _ => False) a P -> (forall r, P r -> app_fails E (f r)) -> app_fails E (abind a f).
Proof.
  intros Ha Hf. induction a as [r|e|X p k IH]; cbn in *; [auto|done|]. right. eapply must_mono; [|exact Ha]. intros x m. apply IH.
Qed.

(** ** The orders of summation *)
(** The sizes and flags that occur in the suites. *)
Definition shape (c : test_case) : bool :=
  let b := c_block_input c in
  (c_block_result c =? b) && ((b =? 1) || (b =? 128)) &&
  existsb (fun d => c_N c =? b * 2 ^ d) [1; 2; 3] &&
  if (c_suite c =? "naive")%string then negb (c_transposed c)
  else if (c_algorithm c =? "semi")%string then c_transposed c && (c_N c mod 4 =? 0)
  else if (c_algorithm c =? "algorithms")%string || (c_algorithm c =? "looped")%string then c_transposed c
  else if (c_algorithm c =? "combined")%string then negb (c_transposed c)
  else (c_algorithm c =? "single")%string || (c_algorithm c =? "pseudodynamic")%string.
Lemma shape_sizes c : shape c = true -> exists d, c_block_result c = c_block_input c /\
  (c_block_input c = 1 \/ c_block_input c = 128) /\ c_N c = c_block_input c * 2 ^ d /\ (d = 1 \/ d = 2 \/ d = 3).
Proof.
  unfold shape. intros [[[H1 H2]%andb_prop H3]%andb_prop _]%andb_prop. apply Nat.eqb_eq in H1.
  apply existsb_exists in H3 as (d&Hd&H3%Nat.eqb_eq). exists d. split_and!; try done.
  - apply orb_prop in H2 as [H2|H2]; apply Nat.eqb_eq in H2; auto.
  - destruct Hd as [<-|[<-|[<-|[]]]]; auto.
Qed.
Definition race (c : test_case) (l : loc) : Prop := c_algorithm c = "combined"%string /\ l = idFirst.

Lemma hpx_order c : shape c = true -> exists q, order_ok (c_N c) (c_transposed c) q /\
  forall (T : Type) (ops : NumOps T) (A B : list T), length A = c_N c * c_N c -> length B = c_N c * c_N c ->
    app_always (race c) (under_test c A B) (is_matrix (c_N c) (entry_in (c_transposed c) q (c_N c) A B)).
Proof.
  intros Hs. destruct (shape_sizes c Hs) as (d&Ebr&Hb&HN&Hd). unfold under_test.
  set (N := c_N c) in *. set (b := c_block_input c) in *. set (tr := c_transposed c) in *.
  assert (Hb0 : 0 < b) by (destruct Hb as [-> | ->]; lia).
  assert (Hp : 2 <= 2 ^ d <= 8) by (destruct Hd as [->|[->| ->]]; cbn; lia).
  assert (HN2 : 2 <= N) by (rewrite HN; clear -Hb0 Hp; nia).
  assert (HNmax : (Z.of_nat N <= 1024)%Z) by (rewrite HN; destruct Hb as [-> | ->]; lia).
  assert (Hdiv : (b | N)) by (exists (2 ^ d); lia).
  assert (Hleaf : leaf_ok tr b b N).
  { intros _ _ H4. split; [|done]. destruct Hb as [E|E]; rewrite E in *; [lia|]. by exists 32. }
  assert (Hend : d = 0 \/ b < 2 * b) by lia.
  unfold shape in Hs. apply andb_prop in Hs as [_ Hs]. fold N b tr in Hs.
  destruct (c_suite c =? "naive")%string.
  { exists Straight. split; [done|]. intros T ops A B HA HB. apply negb_true_iff in Hs. cbn [app_always]. apply always_to_tol.
    eapply must_mono; [|exact (naive_correct N A B HA HB)]. intros C m HC. rewrite Hs. exact HC. }
  unfold test_hpx_main. fold N b tr. rewrite Ebr.
  destruct (String.eqb_spec (c_algorithm c) "single") as [E|_].
  { exists (leaf_order tr b b). split; [by apply leaf_order_ok|]. intros T ops A B HA HB. cbn [app_always]. apply always_to_tol.
    eapply must_mono; [|exact (single_always N A B tr b b b d 1 HA HB HN (le_n _) Hend Hleaf ltac:(lia))].
    intros C m HC. eapply is_matrix_eq; [exact HC|]. intros i j _ _. apply leaf_order_entry. }
  destruct (String.eqb_spec (c_algorithm c) "pseudodynamic") as [E|_].
  { exists (leaf_order tr b b). split; [by apply leaf_order_ok|]. intros T ops A B HA HB. cbn [app_always]. apply always_to_tol.
    eapply must_mono; [|refine (ps_one_always N A B tr b b 0 0 (fun _ _ => false) 1 1 b d _ HN2 (or_introl eq_refl) ltac:(lia) HA HB HN (le_n _) Hend Hleaf)].
    - intros C m HC. eapply is_matrix_eq; [exact HC|]. intros i j _ _. apply leaf_order_entry.
    - nia. }
  destruct (String.eqb_spec (c_algorithm c) "semi") as [E|_].
  { rewrite E in *. cbn [String.eqb Ascii.eqb Bool.eqb]. apply andb_prop in Hs as [Ht H4%Nat.eqb_eq]. rewrite Ht. cbn [negb].
    exists (Chunks b). split; [done|]. intros T ops A B HA HB. cbn [app_always]. apply always_to_tol.
    apply (semi_order N A B HA HB); [done| |done]. exists (N / 4). pose proof (Nat.div_mod N 4 ltac:(lia)). lia. }
  destruct (String.eqb_spec (c_algorithm c) "algorithms") as [E|_].
  { cbn [orb] in Hs. rewrite Hs. cbn [negb]. exists (Chunks b). split; [done|]. intros T ops A B HA HB. cbn [app_always]. apply always_to_tol.
    by apply (alg_order N A B). }
  destruct (String.eqb_spec (c_algorithm c) "looped") as [E|_].
  { cbn [orb] in Hs. rewrite Hs. cbn [negb]. exists Straight. split; [done|]. intros T ops A B HA HB. cbn [app_always]. apply always_to_tol.
    destruct (looped_eq_naive N A B HA HB b b Hb0 Hb0 Hdiv Hdiv) as (C&HC&Hl&_). eapply must_mono; [|exact Hl]. intros C' m ->. exact HC. }
  cbn [orb] in Hs.
  destruct (String.eqb_spec (c_algorithm c) "combined") as [E|_]; [|done].
  apply negb_true_iff in Hs. rewrite Hs. exists (Padded shipped). split.
  { cbn [order_ok]. split; [done|]. split; [cbn; lia|]. split; [cbn; lia|].
    destruct shipped_ok as (_&(_&_&[x1 E1])&(_&_&[x2 E2])&_). exists (x2 * x1). rewrite E2, E1. lia. }
  intros T ops A B HA HB. cbn [app_always]. pose proof (combined_order1 shipped N A B shipped_ok HA HB) as Hc.
  unfold always_tol in *; eapply must_tol; [|exact Hc]; intros l Hl; cbn in Hl; split; [done|exact Hl].
Qed.

(** ** The matrices *)
Definition right_length (N : nat) (s : source) : Prop :=
  match s with Literal l | Transposed_literal l => length l = N * N | Random => True end.
Lemma matrix_from_ok gen N s tol : right_length N s ->
  app_always tol (matrix_from gen N s) (fun D => exists M, D = TNum <$> M /\ length M = N * N /\ stored gen N s M).
Proof.
  destruct s as [l|l|]; cbn [right_length matrix_from stored app_always].
  - intros Hl. exists (double_literal <$> l). rewrite list_fmap_compose, fmap_length. done.
  - intros Hl. assert (HL : length (double_literal <$> l) = N * N) by by rewrite fmap_length.
    destruct (transpose_rect_correct N N (double_literal <$> l) HL) as (M&_&HM).
    destruct (transpose_rect_correct N N (TNum <$> (double_literal <$> l))) as (R&ER&HR); [by rewrite fmap_length|].
    rewrite list_fmap_compose. rewrite transpose_sq_rect, ER. apply always_tol_ret. exists M. split; [|split; [by destruct HM|done]].
    eapply is_transpose_unique; [exact HR|]. destruct HM as [HM1 HM2]. split; [by rewrite fmap_length|].
    intros i j Hi Hj. rewrite (list_lookup_fmap TNum M), (list_lookup_fmap TNum (double_literal <$> l)), HM2 by done. done.
  - intros _. exists (gen <$> seq 0 (N * N)). rewrite list_fmap_compose, fmap_length, seq_length. done.
Qed.

(** ** The references *)
Lemma reference_ok c M1 M2 tol : length M1 = c_N c * c_N c -> length M2 = c_N c * c_N c ->
  app_always tol (reference_of c (TNum <$> M1) (TNum <$> M2)) (fun D =>
    match c_ref c with
    | Ref_identity => is_identity (c_N c) D
    | Ref_naive => is_matrix (c_N c) (entry_in (c_transposed c) Straight (c_N c) (TNum <$> M1) (TNum <$> M2)) D
    | Ref_A => D = TNum <$> M1
    end).
Proof.
  intros H1 H2. unfold reference_of. destruct (c_ref c); cbn [app_always]; [| |done].
  - destruct (create_identity_correct (T:=term) (c_N c)) as (M&->&HM). by apply always_tol_ret.
  - apply always_to_tol. destruct (c_transposed c); cbn [negb].
    + eapply must_mono; [|apply naive_transposed_correct; by apply term_length]. done.
    + eapply must_mono; [|apply naive_correct; by apply term_length]. done.
Qed.

(** ** Assembly *)
Definition small_check (k : check) : Prop := k = Check_small (Dec 1 8) \/ k = Check_small (Dec 1 5).
Lemma small_check_ok k (x y : binary64) : small_check k -> finite64 x = true -> finite64 y = true ->
  (Rabs (val64 x - val64 y) <= eps)%R -> check_entry k x y = true.
Proof.
  intros [-> | ->] Hx Hy Hd; cbn [check_entry]; apply small_below; try done; (apply tol8 || apply tol5).
Qed.
Inductive data (c : test_case) : Prop :=
| data_random : c_A c = Random -> c_B c = Random -> c_ref c = Ref_naive -> small_check (c_check c) -> data c
| data_literal la lb : c_A c = Literal la -> c_B c = (if c_transposed c then Transposed_literal lb else Literal lb) ->
    inverse_pair (c_N c) la lb = true -> c_ref c = Ref_identity -> c_N c <= 8 ->
    (small_check (c_check c) \/ c_check c = Check_close (Dec 1 10) /\ integers la = true /\ integers lb = true) -> data c.

Lemma checks_by_entry c (f g : nat -> nat -> term) D R :
  (forall i j v v', i < c_N c -> j < c_N c -> compiled (f i j) v -> compiled (g i j) v' -> check_entry (c_check c) v v' = true) ->
  is_matrix (c_N c) f D -> is_matrix (c_N c) g R ->
  forall C C', Forall2 compiled D C -> Forall2 compiled R C' -> all_checks_pass c C C'.
Proof.
  intros H HD HR C C' HC HC' k Hk. set (N := c_N c) in *. assert (HN : N <> 0) by (intros E; rewrite E in Hk; lia).
  assert (Ek : k = k / N * N + k mod N) by (rewrite (Nat.div_mod k N HN) at 1; lia).
  assert (Hi : k / N < N) by (apply Nat.div_lt_upper_bound; lia). assert (Hj : k mod N < N) by (by apply Nat.mod_upper_bound).
  rewrite Ek. destruct (compiled_entry N f D C (k / N) (k mod N) HD HC Hi Hj) as (v&Hv&Hcv).
  destruct (compiled_entry N g R C' (k / N) (k mod N) HR HC' Hi Hj) as (v'&Hv'&Hcv').
  exists v, v'. split; [exact Hv|]. split; [exact Hv'|]. exact (H _ _ _ _ Hi Hj Hcv Hcv').
Qed.

Section Pass.
  Context (gen : nat -> binary64) (Hgen : unit_draws gen) (c : test_case) (Hs : shape c = true) (Hd : data c).
  Notation N := (c_N c).
  Notation tr := (c_transposed c).
  Lemma unit_random : unit_entries (gen <$> seq 0 (N * N)).
  Proof.
    intros x (k&->&_)%elem_of_list_fmap. destruct (Hgen k) as (H1&H2&H3). split; [done|]. rewrite Rabs_pos_eq; done.
  Qed.
  Lemma small_N : (Z.of_nat N <= 1024)%Z.
  Proof.
    destruct (shape_sizes c Hs) as (d&_&Hb&->&Hp). destruct Hb as [-> | ->]; destruct Hp as [->|[->| ->]]; cbn -[Z.of_nat Nat.mul]; lia.
  Qed.
  (** The factors in the order (X, Y) in which the product is formed. *)
  Context (X Y A B : list binary64).
  Hypothesis HXY : (X = A /\ Y = B) \/ (X = B /\ Y = A).
  Hypothesis HA : length A = N * N.
  Hypothesis HB : length B = N * N.
  Hypothesis HsA : stored gen N (c_A c) A.
  Hypothesis HsB : stored gen N (c_B c) B.
  Context (q : summation) (D R : list term).
  Hypothesis Hq : order_ok N tr q.
  Hypothesis HD : is_matrix N (entry_in tr q N (TNum <$> X) (TNum <$> Y)) D.
  Hypothesis HR : match c_ref c with
    | Ref_identity => is_identity N R
    | Ref_naive => is_matrix N (entry_in tr Straight N (TNum <$> A) (TNum <$> B)) R
    | Ref_A => R = TNum <$> A
    end.
  Lemma case_checks : forall C C', Forall2 compiled D C -> Forall2 compiled R C' -> all_checks_pass c C C'.
  Proof.
    destruct Hd as [EA EB Er Hk|la lb EA EB Hinv Er HN Hk]; rewrite EA in HsA; rewrite EB in HsB; rewrite Er in HR.
    - cbn [stored] in HsA, HsB. assert (X = A /\ Y = A) as [EX EY] by (destruct HXY as [[-> ->]|[-> ->]]; by subst A B). rewrite EX, EY in HD.
      assert (EBA : B = A) by by subst A B. rewrite EBA in HR.
      eapply checks_by_entry; [|exact HD|exact HR]. intros i j v v' Hi Hj Hv Hv'.
      assert (Hu : unit_entries A) by (rewrite HsA; apply unit_random).
      destruct (random_near N A i j HA small_N Hi Hj Hu tr q Straight v v' Hq I Hv Hv') as (H1&H2&H3). by apply small_check_ok.
    - apply inverse_pair_facts in Hinv as (HlX&HlY&H8A&H8B&Hn1&Hn2). set (LA := double_literal <$> la) in *. set (LB := double_literal <$> lb) in *.
      cbn [stored] in HsA. 
      assert (HBin : forall x, x ∈ B -> x ∈ LB).
      { destruct tr; cbn [stored] in HsB; [intros x; by eapply transposed_in|by subst B]. }
      assert (HB8 : within8 B) by (intros x Hx; by apply H8B, HBin).
      assert (HA8 : within8 A) by (by rewrite HsA).
      assert (Hnear : near_identity tr N X Y).
      { destruct tr; cbn [stored] in HsB; destruct HXY as [[-> ->]|[-> ->]]; rewrite HsA.
        - by eapply near_right.
        - by eapply near_left.
        - by rewrite HsB.
        - by rewrite HsB. }
      assert (HX8 : within8 X) by (destruct HXY as [[-> _]|[-> _]]; done).
      assert (HY8 : within8 Y) by (destruct HXY as [[_ ->]|[_ ->]]; done).
      assert (HX : length X = N * N) by (destruct HXY as [[-> _]|[-> _]]; done).
      assert (HY : length Y = N * N) by (destruct HXY as [[_ ->]|[_ ->]]; done).
      eapply checks_by_entry; [|exact HD|exact HR]. intros i j v v' Hi Hj Hv Hv'. cbn beta in Hv'.
      assert (Ev' : v' = double_of (if decide (i = j) then 1 else 0)).
      { assert (E0 : (nzero : binary64) = double_of 0) by reflexivity. destruct (decide (i = j)); apply compiled_leaf in Hv'; [done|]. by rewrite <- E0. }
      destruct Hk as [Hk|(Hk&HiA&HiB)].
      + destruct (literal_near N X Y tr HX HY HN HX8 HY8 Hnear i j Hi Hj q v Hq Hv) as [Hf He].
        assert (Hval : val64 v' = delta i j).
        { rewrite Ev'. unfold delta. destruct (decide (i = j)); [apply one_value|reflexivity]. }
        apply small_check_ok; [done|done| |by rewrite Hval]. rewrite Ev'. by destruct (decide _).
      + apply integers_integral in HiA, HiB. fold LA in HiA. fold LB in HiB.
        assert (HiB' : integral B) by (intros x Hx; by apply HiB, HBin). assert (HiA' : integral A) by (by rewrite HsA).
        assert (HiX : integral X) by (destruct HXY as [[-> _]|[-> _]]; done).
        assert (HiY : integral Y) by (destruct HXY as [[_ ->]|[_ ->]]; done).
        pose proof (literal_exact N X Y tr HX HY HN HX8 HY8 Hnear i j Hi Hj q v HiX HiY Hq Hv) as Ev.
        rewrite Hk. cbn [check_entry]. rewrite Ev, Ev'. destruct (decide _); apply close01.
  Qed.
End Pass.

Lemma data_lengths c : data c -> right_length (c_N c) (c_A c) /\ right_length (c_N c) (c_B c).
Proof.
  intros [-> -> _ _|la lb -> -> Hinv _ _ _]; [done|]. apply inverse_pair_facts in Hinv as (HA&HB&_). rewrite fmap_length in HA, HB.
  split; [done|]. by destruct (c_transposed c).
Qed.
Lemma good_passes gen c : unit_draws gen -> shape c = true -> data c -> passes gen under_test c /\ passes gen (swapped under_test) c.
Proof.
  intros Hgen Hs Hd. destruct (hpx_order c Hs) as (q&Hq&Hal). destruct (data_lengths c Hd) as [HlA HlB].
  unfold passes, run_case, swapped. fold (race c).
  split; apply app_always_bind; (eapply app_always_mono; [|by apply matrix_from_ok]); intros DA (A&->&HA&HsA);
    apply app_always_bind; (eapply app_always_mono; [|by apply matrix_from_ok]); intros DB (B&->&HB&HsB);
    apply app_always_bind; (eapply app_always_mono; [|apply Hal; by apply term_length]); intros D HD;
    apply app_always_bind; (eapply app_always_mono; [|by apply reference_ok]); intros R HR; cbn [app_always fst snd].
  - eapply case_checks with (X := A) (Y := B) (A := A) (B := B); eauto.
  - eapply case_checks with (X := B) (Y := A) (A := A) (B := B); eauto.
Qed.

Lemma all_good c : c ∈ all_cases -> ~ two_by_two_semi c -> shape c = true /\ data c.
Proof.
  intros Hc Hn. assert (HF : Forall (fun c => two_by_two_semi c \/ (shape c = true /\ data c)) all_cases).
  { unfold all_cases, suite_algorithms, suite_combined, suite_looped, suite_pseudodynamic, suite_semi, suite_single, suite_naive. cbn [Datatypes.app].
    repeat first [apply Forall_cons; split | apply Forall_nil; exact I];
    first [ left; split; reflexivity
          | right; split; [vm_compute; reflexivity|];
            first [ apply data_random; [reflexivity|reflexivity|reflexivity|first [left; reflexivity|right; reflexivity]]
                  | eapply data_literal; [reflexivity|reflexivity|first [exact inverse2|exact inverse4|exact inverse8]|reflexivity|cbn; lia|
                      first [left; left; reflexivity|left; right; reflexivity|right; split; [reflexivity|exact integers2]]]] ]. }
  rewrite Forall_forall in HF. destruct (HF c Hc); [done|done].
Qed.
Lemma suites_pass gen c : unit_draws gen -> c ∈ all_cases -> ~ two_by_two_semi c -> passes gen under_test c.
Proof. intros Hg Hc Hn. destruct (all_good c Hc Hn). by apply good_passes. Qed.
Lemma suites_pass_swapped gen c : unit_draws gen -> c ∈ all_cases -> ~ two_by_two_semi c -> passes gen (swapped under_test) c.
Proof. intros Hg Hc Hn. destruct (all_good c Hc Hn). by apply good_passes. Qed.

(** ** The 2x2 cases of semi *)
Lemma semi_lengths c : c ∈ all_cases -> two_by_two_semi c -> c_suite c = "semi"%string /\ c_transposed c = true /\ c_block_input c = 1 /\
  right_length (c_N c) (c_A c) /\ right_length (c_N c) (c_B c).
Proof.
  intros Hc [Ha HN]. assert (HF : Forall (fun c => c_algorithm c <> "semi"%string \/ c_N c <> 2 \/ (c_suite c = "semi"%string /\ c_transposed c = true /\ c_block_input c = 1 /\
    right_length (c_N c) (c_A c) /\ right_length (c_N c) (c_B c))) all_cases).
  { unfold all_cases, suite_algorithms, suite_combined, suite_looped, suite_pseudodynamic, suite_semi, suite_single, suite_naive. cbn [Datatypes.app].
    repeat first [apply Forall_cons; split | apply Forall_nil; exact I];
    first [left; discriminate|right; left; cbn; discriminate|right; right; split_and!; first [reflexivity|exact I]]. }
  rewrite Forall_forall in HF. destruct (HF c Hc) as [?|[?|?]]; done.
Qed.
Lemma semi_undefined gen c : c ∈ all_cases -> two_by_two_semi c -> app_fails (fun e => e = EOob) (run_case gen under_test c).
Proof.
  intros Hc Ht. destruct (semi_lengths c Hc Ht) as (Es&Et&Eb&HlA&HlB). destruct Ht as [Ea EN]. unfold run_case.
  eapply app_fails_bind; [by apply matrix_from_ok|]. intros DA (A&->&HA&_).
  eapply app_fails_bind; [by apply matrix_from_ok|]. intros DB (B&->&HB&_).
  unfold under_test, test_hpx_main. rewrite Es, Ea, Et, Eb. cbn [String.eqb Ascii.eqb Bool.eqb negb abind app_fails]. left.
  apply semi_partial_blocks; [by apply term_length|by apply term_length|lia|lia|]. rewrite EN. intros [[z Hz] _]. lia.
Qed.

(** ** The block sizes *)
Lemma equal_blocks c : c ∈ all_cases -> c_block_input c = c_block_result c.
Proof.
  intros Hc. assert (HF : Forall (fun c => c_block_input c = c_block_result c) all_cases) by (unfold all_cases; rewrite !Forall_app; split_and!; [repeat constructor..]).
  rewrite Forall_forall in HF. by apply HF.
Qed.
Lemma exchange_same c : c ∈ all_cases -> exchange_blocks c = c.
Proof. intros Hc. pose proof (equal_blocks c Hc) as E. unfold exchange_blocks. destruct c; cbn in *. by subst. Qed.
Lemma exchange_passes gen mult c : c ∈ all_cases -> passes gen (fun c => mult (exchange_blocks c)) c <-> passes gen mult c.
Proof.
  intros Hc. unfold passes. assert (E : run_case gen (fun c => mult (exchange_blocks c)) c = run_case gen mult c).
  { unfold run_case. by rewrite exchange_same. }
  by rewrite E.
Qed.
Lemma exchanged_single {T} `{NumOps T} N (A B : list T) transposed tol : length A = N * N -> length B = N * N ->
  app_always tol (test_hpx_main "single" N A B transposed 0 N) (is_zero N) /\
  always (single_matrix_multiply N A B transposed 0 N 1) (is_matrix N (pentry transposed N A B)).
Proof.
  intros HA HB. split.
  - change (always_tol tol (single_matrix_multiply N A B transposed N 0 1) (is_zero N)). apply always_to_tol. exact (single_zero_always N A B transposed N 1).
  - eapply must_mono; [|exact (single_always N A B transposed 0 N N 0 1 HA HB ltac:(cbn; lia) (le_n _) (or_introl eq_refl) ltac:(intros _ ?; lia) ltac:(lia))].
    intros C m HC. eapply is_matrix_eq; [exact HC|]. intros i j _ _. unfold leaf_entry, pentry. by destruct transposed.
Qed.

(** ** What a passing case certifies *)
Lemma always_both {T} `{NumOps T} {X} tol (p : prog T X) (P Q : X -> Prop) : always_tol tol p Q -> always p P -> exists x, P x /\ Q x.
Proof.
  intros HQ HP. destruct (must_ends _ _ _ _ HQ) as (x&m&Hs&Hx). exists x. split; [|done].
  exact (must_ret_inv _ _ _ _ (must_steps _ _ _ _ _ _ HP Hs)).
Qed.
Lemma compiled_some D : exists C, Forall2 compiled D C.
Proof. exists (separate <$> D). induction D as [|e D IH]; [constructor|]. cbn. constructor; [apply separate_compiled|done]. Qed.
Lemma small_above (tol : binary64) (x y : binary64) : finite64 tol = true -> check_small tol (absdiff64 x y) = true ->
  finite64 x = true /\ (Rabs (val64 x - val64 y) < val64 tol)%R.
Proof.
  intros Ht Hs. unfold check_small, lt64, absdiff64 in Hs.
  assert (Hf : finite64 (b64_minus rne x y) = true).
  { destruct (b64_minus rne x y) as [s|s|s pl Hpl|s m e He]; [done| |done|done]. destruct tol; done. }
  destruct (minus_finite _ _ Hf) as [Hx Hy]. split; [done|].
  unfold b64_compare in Hs. rewrite Bcompare_correct in Hs; [|unfold b64_abs; by rewrite !is_finite_Babs|done].
  unfold b64_abs in Hs. rewrite !B2R_Babs, Rabs_Rabsolu in Hs.
  pose proof (Bminus_correct 53 1024 eq_refl eq_refl binop_nan_pl64 rne x y Hx Hy) as Hm.
  change (Bminus 53 1024 _ _ binop_nan_pl64 rne) with (b64_minus rne) in Hm.
  destruct (Rlt_bool _ _) eqn:Eb; [|destruct Hm as (Hv&_); exfalso; destruct (b64_minus rne x y); done].
  destruct Hm as (Hv&_&_). rewrite Hv, <- rnd64_abs in Hs. apply Rnot_le_lt. intros Hle. apply rnd64_le in Hle.
  rewrite (rnd64_id _ (val64_format tol)) in Hle. destruct (Rcompare_spec (rnd64 (Rabs (val64 x - val64 y))) (val64 tol)); try done.
  exact (Rlt_not_le _ _ H Hle).
Qed.

Section Certify.
  Context (gen : nat -> binary64) (Hgen : unit_draws gen) (c : test_case).
  Notation N := (c_N c).
  Notation tr := (c_transposed c).
  (** The reference is near the exact product. *)
  Lemma reference_near A B R : shape c = true -> data c -> length A = N * N -> length B = N * N ->
    stored gen N (c_A c) A -> stored gen N (c_B c) B ->
    match c_ref c with
    | Ref_identity => is_identity N R
    | Ref_naive => is_matrix N (entry_in tr Straight N (TNum <$> A) (TNum <$> B)) R
    | Ref_A => R = TNum <$> A
    end -> forall C', Forall2 compiled R C' -> forall i j, i < N -> j < N -> exists y, C' !! (i * N + j) = Some y /\
      (Rabs (val64 y - exact_entry tr N A B i j) <= eps)%R.
  Proof.
    intros Hs Hd HA HB HsA HsB HR C' HC' i j Hi Hj.
    destruct Hd as [EA EB Er Hk|la lb EA EB Hinv Er HN Hk]; rewrite EA in HsA; rewrite EB in HsB; rewrite Er in HR.
    - cbn [stored] in HsA, HsB. assert (EBA : B = A) by by subst A B. rewrite EBA in *.
      destruct (compiled_entry N _ _ _ i j HR HC' Hi Hj) as (y&Hy&Hc). exists y. split; [done|].
      assert (Hu : unit_entries A) by (rewrite HsA; by apply unit_random).
      assert (HN : (Z.of_nat N <= 1024)%Z) by by apply small_N.
      pose proof (compiled_finite N A A i j HA HA Hi Hj Hu Hu tr Straight y ltac:(lia) I Hc) as Hf.
      eapply Rle_trans; [exact (compiled_close N A A i j HA HA Hi Hj tr Straight y I Hc Hf)|].
      pose proof (random_bound N A i j HA HN Hi Hj Hu tr) as Hb.
      assert (0 <= eps)%R by apply bpow_ge_0. lra.
    - apply inverse_pair_facts in Hinv as (HlX&HlY&H8A&H8B&Hn1&Hn2). cbn [stored] in HsA.
      assert (Hnear : near_identity tr N A B).
      { destruct tr; cbn [stored] in HsB; rewrite HsA; [eapply near_right; [exact HlY|exact HsB|exact Hn1]|rewrite HsB; exact Hn1]. }
      destruct (compiled_entry N _ _ _ i j HR HC' Hi Hj) as (y&Hy&Hc). exists y. split; [done|]. cbn beta in Hc.
      assert (Hval : val64 y = delta i j).
      { unfold delta. destruct (decide (i = j)); apply compiled_leaf in Hc as ->; [apply one_value|reflexivity]. }
      rewrite Hval, Rabs_minus_sym. eapply Rle_trans; [by apply Hnear|]. apply bpow_le. lia.
  Qed.
  Lemma certified mult A B : c ∈ all_cases -> ~ two_by_two_semi c -> c_check c = Check_small (Dec 1 8) ->
    length A = N * N -> length B = N * N -> stored gen N (c_A c) A -> stored gen N (c_B c) B -> passes gen mult c ->
    app_always (race c) (mult c (TNum <$> A) (TNum <$> B)) (fun D => forall C, Forall2 compiled D C -> forall i j, i < N -> j < N ->
      exists x, C !! (i * N + j) = Some x /\ finite64 x = true /\ (Rabs (val64 x - exact_entry tr N A B i j) <= 2 / 10 ^ 8)%R).
  Proof.
    intros Hc Hn Hk HA HB HsA HsB Hp. destruct (all_good c Hc Hn) as [Hs Hd]. destruct (data_lengths c Hd) as [HlA HlB].
    unfold passes, run_case in Hp. fold (race c) in Hp.
    assert (Hfrom : forall s M k (Q : list term * list term -> Prop), right_length N s -> length M = N * N -> stored gen N s M ->
      app_always (race c) (abind (matrix_from gen N s) k) Q -> app_always (race c) (k (TNum <$> M)) Q).
    { intros s M k Q Hl HM HsM H. apply app_always_bind in H. destruct s as [l|l|]; cbn [stored matrix_from app_always right_length] in *.
      - subst M. by rewrite <- list_fmap_compose.
      - destruct (transpose_rect_correct N N (TNum <$> (double_literal <$> l))) as (R&ER&HR); [by rewrite !fmap_length|].
        rewrite list_fmap_compose, transpose_sq_rect, ER in H. apply always_tol_ret in H.
        assert (R = TNum <$> M) as <-; [|done]. eapply is_transpose_unique; [exact HR|]. destruct HsM as [HM1 HM2]. split; [by rewrite fmap_length|].
        intros i j Hi Hj. rewrite (list_lookup_fmap TNum M), (list_lookup_fmap TNum (double_literal <$> l)), HM2 by done. done.
      - subst M. by rewrite <- list_fmap_compose. }
    apply (Hfrom _ A) in Hp; [|done..]. apply (Hfrom _ B) in Hp; [|done..]. apply app_always_bind in Hp.
    eapply app_always_mono; [|exact Hp]. intros D HD C HC i j Hi Hj. cbn beta in HD. apply app_always_bind in HD.
    pose proof (reference_ok c A B (fun _ => False) HA HB) as Href.
    assert (Hex : exists R, (match c_ref c with
      | Ref_identity => is_identity N R
      | Ref_naive => is_matrix N (entry_in tr Straight N (TNum <$> A) (TNum <$> B)) R
      | Ref_A => R = TNum <$> A
      end) /\ forall C C', Forall2 compiled D C -> Forall2 compiled R C' -> all_checks_pass c C C').
    { unfold reference_of in *. destruct (c_ref c); cbn [app_always fst snd] in *.
      - destruct (always_both _ _ _ _ HD Href) as (R&H1&H2). by exists R.
      - destruct (always_both _ _ _ _ HD Href) as (R&H1&H2). by exists R.
      - by exists (TNum <$> A). }
    destruct Hex as (R&HR&Hall). destruct (compiled_some R) as [C' HC']. specialize (Hall C C' HC HC' (i * N + j) ltac:(nia)).
    destruct Hall as (x&y&Hx&Hy&Hch). rewrite Hk in Hch. cbn [check_entry] in Hch.
    destruct (reference_near A B R Hs Hd HA HB HsA HsB HR C' HC' i j Hi Hj) as (y'&Hy'&Hyn). assert (E : Some y = Some y') by (etransitivity; [symmetry; exact Hy|exact Hy']). injection E as <-.
    apply small_above in Hch as [Hf Hlt]; [|apply tol8]. exists x. split; [done|]. split; [done|].
    assert (Ht : (val64 (double_literal (Dec 1 8)) <= 11 / 10 ^ 9)%R).
    { assert (E : double_literal (Dec 1 8) = B754_finite 53 1024 false 6044629098073146 (-79) eq_refl) by (apply B2FF_inj; vm_compute; reflexivity).
      rewrite E. unfold B2R, F2R. cbn [Fnum Fexp cond_Zopp Defs.Fnum Defs.Fexp]. rewrite (bp 79). change (2 ^ 79)%Z with 604462909807314587353088%Z. simpl. lra. }
    assert (He : (eps <= 8 / 10 ^ 9)%R) by (unfold eps; rewrite (bp 27); change (2 ^ 27)%Z with 134217728%Z; simpl; lra).
    set (t := val64 (double_literal (Dec 1 8))) in *. clearbody t. set (e := exact_entry tr N A B i j) in *. clearbody e.
    replace (val64 x - e)%R with ((val64 x - val64 y) + (val64 y - e))%R by lra.
    eapply Rle_trans; [apply Rabs_triang|]. simpl in *. lra.
  Qed.
End Certify.
