(** The benchmark program and the application in any order of summation. *)
From Coq Require Import ZArith Reals Psatz String FunctionalExtensionality.
From Flocq Require Import Core IEEE754.Binary IEEE754.Bits.
From Verif Require Import Conc ConcFacts Base Num Tools Spec SpecTiled SpecContract SpecExp SpecExp2 SpecBench MExp2 MBench MCeil PCeil MDouble PDouble MContract MFast MBenchFast.
From Verif Require Import Properties13 Properties14 PUtil PPseudo PTiled5 PAlign PBench PBench64 PContract2 PRound PRound2 PContract PContract3 PFast PFast2 PFast3 MApp SpecApp SpecRound SpecFast.
Local Open Scope nat_scope.

(** ** The printed check *)
Lemma matrix_list {T} n (f : nat -> nat -> T) M R : is_matrix n f M -> is_matrix n f R -> M = R.
Proof.
  intros [L1 H1] [L2 H2]. apply list_eq. intros q. destruct (decide (q < n * n)) as [Hq|Hq].
  - destruct n as [|n]; [lia|]. pose proof (Nat.div_mod q (S n) ltac:(lia)) as E.
    assert (q / S n < S n) by (apply Nat.div_lt_upper_bound; lia). assert (q mod S n < S n) by (apply Nat.mod_upper_bound; lia).
    replace q with (q / S n * S n + q mod S n) by lia. by rewrite H1, H2.
  - rewrite !lookup_ge_None_2 by lia. done.
Qed.
Lemma pbind_assoc {T X Y Z} (p : prog T X) (f : X -> prog T Y) (g : Y -> prog T Z) :
  pbind g (pbind f p) = pbind (fun x => pbind g (f x)) p.
Proof.
  induction p; cbn; try done.
  - f_equal. by apply functional_extensionality.
  - f_equal. by apply functional_extensionality.
  - by rewrite IHp.
  - by rewrite IHp3.
Qed.
Lemma main_is_product {T} `{NumOps T} (two : T) (root : T -> T) n (p : platform T) prg name rest :
  bench_main_at two root n p (prg :: name :: rest) =
  (let! o := bench_product two n p name in
   match o with None => Ret (BenchRun 0 None) | Some C => let! check := bench_check root n C in Ret (BenchRun 0 (Some check)) end).
Proof.
  unfold bench_main_at, bench_product.
  repeat match goal with |- context [match bench_buffer ?a ?b with _ => _ end] => destruct (bench_buffer a b); [|reflexivity] end.
  destruct (bench_fill_ok two n (p_junk p)) as (A&At&B&Bt&C&E&_). rewrite E. cbn [pbind].
  match goal with |- context [match bench_kernel ?a ?b ?c ?d ?e ?f ?g ?h ?i ?j ?k with _ => _ end] => destruct (bench_kernel a b c d e f g h i j k) as [k'|]; [|reflexivity] end.
  rewrite pbind_assoc. reflexivity.
Qed.

Lemma neg_pos (x : binary64) : finite64 x = true -> (0 < val64 x)%R -> neg64 x = false.
Proof.
  destruct x as [s|s|s pl H|s m e H]; try done; [cbn; intros _ Hx; lra|]. intros _ Hx. destruct s; [|done]. exfalso.
  revert Hx. apply Rle_not_lt. cbn. apply F2R_le_0. cbn. lia.
Qed.
Lemma print_exact n (C : list binary64) v : 0 < n -> (Z.of_nat n <= 2 ^ 25)%Z -> has_values n (fun _ _ => 2%R) C -> may_print n C v -> v = double_of (2 * Z.of_nat n).
Proof.
  intros Hn0 Hn HC (e&s&He&Hm&->).
  set (c := fun q => default (double_of 2) (C !! q)). destruct HC as [HL HC].
  assert (H2 : finite64 (double_of 2) = true /\ val64 (double_of 2) = 2%R) by (destruct (double_of_exact 2 ltac:(lia)); split; assumption).
  assert (Hc : forall q, finite64 (c q) = true /\ val64 (c q) = 2%R).
  { intros q. destruct (decide (q < n * n)) as [Hq|Hq]; [|unfold c; by rewrite lookup_ge_None_2 by lia].
    pose proof (Nat.div_mod q n ltac:(lia)) as E.
    destruct (HC (q / n) (q mod n)) as (x&Hx&H3&H4); [apply Nat.div_lt_upper_bound; lia|apply Nat.mod_upper_bound; lia|].
    replace (q / n * n + q mod n) with q in Hx by lia.
    assert (c q = x) as -> by exact (f_equal (default (double_of 2)) Hx). done. }
  assert (HM : is_matrix n (fun i j => TNum (c (i * n + j))) (TNum <$> C)).
  { split; [by rewrite fmap_length|]. intros i j Hi Hj. destruct (HC i j Hi Hj) as (x&Hx&_). rewrite list_lookup_fmap.
    assert (c (i * n + j) = x) as -> by exact (f_equal (default (double_of 2)) Hx). exact (f_equal (fmap TNum) Hx). }
  rewrite (bench_check_ok (fun e => e) n _ _ HM) in He. assert (Ee : sum_sq n (fun i j => TNum (c (i * n + j))) = e) by (injection He; done). clear He.
  unfold sum_sq in Ee. erewrite dot_ext in Ee; [|intros q _; cbn beta; instantiate (1 := fun q => TMul (TNum (c q)) (TNum (c q)));
    pose proof (Nat.div_mod q n ltac:(lia)); cbn; by replace (q / n * n + q mod n) with q by lia].
  rewrite <- Ee in Hm. clear Ee e.
  destruct (adds_machine c c _ _ _ (adds_straight c c (n * n)) Hm) as (e'&ls&Hp&Hpr&Hcc).
  assert (Hsum : forall l, rsum (fun k => val64 (c k) * val64 (c k))%R l = IZR (4 * Z.of_nat (length l))).
  { intros l. rewrite (rsum_ext _ (fun _ => 4 * 1)%R) by (intros k _; rewrite (proj2 (Hc k)); lra).
    rewrite rsum_mult, rsum_ones, INR_IZR_INZ, mult_IZR. done. }
  assert (Hnn : (0 <= Z.of_nat (n * n) <= 2 ^ 50)%Z) by (rewrite Nat2Z.inj_mul; change (2 ^ 50)%Z with (2 ^ 25 * 2 ^ 25)%Z; nia).
  destruct (prods_exact c c (fun k => proj1 (Hc k)) (fun k => proj1 (Hc k)) e' ls Hpr) with (v := s) as [F V]; [|done|].
  - intros l Hl. apply submseteq_length in Hl. rewrite Hp, seq_length in Hl. unfold double_sum. rewrite Hsum.
    exists (double_of (4 * Z.of_nat (length l))). apply (double_of_exact (4 * Z.of_nat (length l))). lia.
  - rewrite Hsum, Hp, seq_length, Nat2Z.inj_mul in V. rewrite Nat2Z.inj_mul in Hnn.
    replace (4 * (Z.of_nat n * Z.of_nat n))%Z with ((2 * Z.of_nat n) * (2 * Z.of_nat n))%Z in V by lia.
    assert (Hs : s = double_of ((2 * Z.of_nat n) * (2 * Z.of_nat n))).
    { apply double_eq; [lia|done| |done]. apply neg_pos; [done|]. rewrite V. apply IZR_lt. lia. }
    rewrite Hs. apply double_sqrt; lia.
Qed.

(** ** The benchmark program *)
Lemma matrix_terms n (f : nat -> nat -> term) (g : nat -> nat -> binary64) M : (forall i j, f i j = TNum (g i j)) -> is_matrix n f M ->
  exists M', M = TNum <$> M' /\ is_matrix n g M'.
Proof.
  intros Hfg HM. destruct (is_matrix_exists n g) as [M' HM']. exists M'. split; [|done]. apply (matrix_list n f); [done|].
  destruct HM' as [HL H]. split; [by rewrite fmap_length|]. intros i j Hi Hj. rewrite list_lookup_fmap, H by done. cbn. by rewrite Hfg.
Qed.
Lemma product_any n (p : platform term) name :
  8 <= n -> (Z.of_nat n <= 2 ^ 25)%Z -> (256 | n) ->
  (forall a, a ∈ [p_A p; p_ATransposed p; p_B p; p_BTransposed p; p_C p] -> good_address n a) ->
  p_fma p = None \/ p_fma p = Some no_fma ->
  p_reg_result p mod 4 = 0 /\ p_reg_BB p mod 4 = 0 /\ p_gpuasm_AA p mod 4 = 0 /\ p_gpuasm_BB p mod 4 = 0 ->
  name ∈ right_names ->
  (name ∈ ["register"; "gpuasm"]%string -> is_Some (p_fma p)) -> (name = "asm"%string -> p_asm p = true) ->
  always (bench_product (TNum (double_of 2)) n p name) (fun o => exists D, o = Some D /\
    forall C, Forall2 machine D C -> has_values n (fun _ _ => 2%R) C /\ forall v, may_print n C v -> v = double_of (2 * Z.of_nat n)).
Proof.
  intros Hn8 Hn H256 Haddr Hfma Hloc Hname Hf Ha.
  destruct (bench_fill_ok (TNum (double_of 2)) n (p_junk p)) as (A&At&B&Bt&C&E&HA&_&HB&HBt&HC).
  destruct (good_buffer n (p_A p) Hn8) as (pA&EA&OA); [apply Haddr; set_solver|].
  destruct (good_buffer n (p_ATransposed p) Hn8) as (pAt&EAt&_); [apply Haddr; set_solver|].
  destruct (good_buffer n (p_B p) Hn8) as (pB&EB&OB); [apply Haddr; set_solver|].
  destruct (good_buffer n (p_BTransposed p) Hn8) as (pBt&EBt&OBt); [apply Haddr; set_solver|].
  destruct (good_buffer n (p_C p) Hn8) as (pC&EC&OC); [apply Haddr; set_solver|].
  unfold bench_product. rewrite EA, EAt, EB, EBt, EC, E. cbn [pbind].
  destruct (matrix_terms n _ (fun _ _ => double_of 2) A (fun _ _ => eq_refl) HA) as (A'&->&HA').
  assert (Hid : forall i j : nat, (if decide (i = j) then none1 else nzero : term) = TNum (if decide (i = j) then none1 else nzero)) by (intros i j; by destruct (decide _)).
  destruct (matrix_terms n _ _ B Hid HB) as (B'&->&HB'). destruct (matrix_terms n _ _ Bt Hid HBt) as (Bt'&->&HBt').
  assert (Ht : is_transpose n n B' Bt').
  { destruct HB' as [L1 H1], HBt' as [L2 H2]. split; [done|]. intros i j Hi Hj. rewrite H1, H2 by done. f_equal.
    destruct (decide (i = j)) as [e1|e1], (decide (j = i)) as [e2|e2]; congruence. }
  assert (Hfin : all_finite A').
  { intros x Hx. destruct (elem_ent n A' x (proj1 HA') Hx) as (i&j&Hi&Hj&Ex). rewrite (proj2 HA' i j Hi Hj) in Ex.
    assert (x = double_of 2) as -> by (symmetry; exact (f_equal (default x) Ex)). apply (double_of_exact 2). lia. }
  destruct (kernel_identity n p A' B' Bt' C H256 (proj1 HA') (proj1 HB') Ht HC Hfma Hloc pA pB pBt pC OA OB OBt OC name Hname Hf Ha HB' HBt' Hfin) as (k&Ek&Hk).
  change (match bench_kernel p n pA pB pBt pC (TNum <$> A') (TNum <$> B') (TNum <$> Bt') C name with Some kernel => let! C0 := kernel in Ret (Some C0) | None => Ret None end)
    with (match bench_kernel p n pA pB pBt pC (TNum <$> A') (TNum <$> B') (TNum <$> Bt') C name with Some kernel => pbind (fun C0 => Ret (Some C0)) kernel | None => Ret None end).
  rewrite Ek. eapply must_bind; [exact Hk|]. cbn beta. intros D m HD. constructor. exists D. split; [done|]. intros R HR.
  assert (Hv : has_values n (fun _ _ => 2%R) R).
  { destruct (HD R HR) as [HL HV]. split; [done|]. intros i j Hi Hj. destruct (HV i j Hi Hj) as (c&Hc&Fc&Vc). exists c. split; [done|]. split; [done|].
    rewrite Vc, (is_matrix_ent n _ A' i j HA' Hi Hj). apply (double_of_exact 2). lia. }
  split; [exact Hv|]. intros v Hp. apply (print_exact n R); [lia|done..].
Qed.

(** ** The algorithms of the application *)
Lemma adds_dead (x y : nat -> binary64) : adds x y (TMul (TNum nzero) (TNum nzero)) [].
Proof. exists []. split; [done|constructor]. Qed.
Lemma bind_below N M : N <= M -> (seq 0 M ≫= fun k => if decide (k < N) then [k] else []) = seq 0 N.
Proof.
  intros HM. replace M with (N + (M - N)) by lia. rewrite seq_app, bind_app.
  assert (E1 : forall l, (forall k, k ∈ l -> k < N) -> (l ≫= fun k => if decide (k < N) then [k] else []) = l).
  { induction l as [|k l IH]; intros Hl; [done|]. cbn. rewrite decide_True by (apply Hl; by left). cbn. f_equal. apply IH. intros; apply Hl; by right. }
  assert (E2 : forall l, (forall k, k ∈ l -> N <= k) -> (l ≫= fun k => if decide (k < N) then [k] else []) = []).
  { induction l as [|k l IH]; intros Hl; [done|]. cbn. rewrite decide_False by (specialize (Hl k ltac:(by left)); lia). apply IH. intros; apply Hl; by right. }
  rewrite E1 by (intros k Hk%elem_of_seq; lia). rewrite E2 by (intros k Hk%elem_of_seq; lia). by rewrite app_nil_r.
Qed.
Lemma bind_bind {X Y Z} (l : list X) (f : X -> list Y) (g : Y -> list Z) : (l ≫= f) ≫= g = l ≫= fun a => f a ≫= g.
Proof. induction l as [|a l IH]; [done|]. cbn. rewrite bind_app. by rewrite <- IH. Qed.
Lemma order_adds N (A B : list binary64) tr q i j : order_ok N tr q -> i < N -> j < N ->
  adds (fun k => ent N A i k) (fun k => if tr : bool then ent N B j k else ent N B k j) (entry_in tr q N (TNum <$> A) (TNum <$> B) i j) (seq 0 N).
Proof.
  intros Hq Hi Hj. destruct q as [|b|b]; cbn [order_ok entry_in] in *.
  - unfold pentry. destruct tr; [by apply (add_prod_t N A B)|by apply (add_prod N A B)].
  - destruct Hq as (->&Hb&[Q E]). unfold prod_t_chunks, dot_chunks. replace (N / b) with Q by (rewrite E; symmetry; apply Nat.div_mul; lia).
    replace (seq 0 N) with (seq 0 Q ≫= fun q => seq (q * b) b) by (rewrite chunks_perm; f_equal; lia).
    apply adds_dot. intros q _. rewrite <- (singles (seq (q * b) b)) at 2. apply adds_dot. intros k _. rewrite !ent_terms. apply (adds_mul (fun k => ent N A i k) (fun k => ent N B j k)).
  - destruct Hq as (->&H1&H3&[z Ez]). unfold tiled_entry, dot_chunks. set (Q := SpecTiled.round_up N (L3_K b) / L1_K b).
    assert (HQ : N <= Q * L1_K b).
    { unfold Q, SpecTiled.round_up. rewrite Ez, Nat.mul_assoc, Nat.div_mul by lia. rewrite <- Nat.mul_assoc, <- Ez. unfold cdiv.
      pose proof (Nat.div_mod (N + (L3_K b - 1)) (L3_K b) ltac:(lia)).
      pose proof (Nat.mod_upper_bound (N + (L3_K b - 1)) (L3_K b) ltac:(lia)). lia. }
    rewrite <- (bind_below N (Q * L1_K b) HQ), <- (chunks_perm (L1_K b) Q), bind_bind.
    apply adds_dot. intros q _. apply adds_dot. intros k _. unfold pent. destruct (decide (k < N)) as [Hk|Hk].
    + rewrite !decide_True by lia. rewrite !ent_terms. apply (adds_mul (fun k => ent N A i k) (fun k => ent N B k j)).
    + rewrite !decide_False by lia. apply adds_dead.
Qed.
Lemma application_any N (A B : list binary64) o G v : length A = N * N -> length B = N * N -> o_n o = N -> flag_ok o v -> suitable o G v ->
  always_tol (tolerated v) (computation o G v (TNum <$> A) (TNum <$> B))
    (fun D => forall C, Forall2 machine D C -> near_product (multiplies o v) N A B C).
Proof.
  intros HA HB Ho Hf Hs. destruct (same_order o G v Hf Hs) as (q&Hq&Hal). rewrite Ho in *.
  eapply must_mono; [|exact (Hal term _ _ _ (term_length _ _ HA) (term_length _ _ HB))].
  intros D m HD. refine (near_product_entries N A B (multiplies o v) (fun i j => entry_in (multiplies o v) (q i j) N (TNum <$> A) (TNum <$> B) i j) D _ HD). intros i j Hi Hj. apply order_adds; [by apply Hq|done..].
Qed.
Lemma application_any_finite N (A B : list binary64) o G v : length A = N * N -> length B = N * N -> o_n o = N -> flag_ok o v -> suitable o G v ->
  unit_entries A -> unit_entries B -> (Z.of_nat N <= 524288)%Z ->
  always_tol (tolerated v) (computation o G v (TNum <$> A) (TNum <$> B))
    (fun D => forall C, Forall2 machine D C -> near_finite_product (multiplies o v) N A B C).
Proof.
  intros HA HB Ho Hf Hs HuA HuB HN. destruct (same_order o G v Hf Hs) as (q&Hq&Hal). rewrite Ho in *.
  eapply must_mono; [|exact (Hal term _ _ _ (term_length _ _ HA) (term_length _ _ HB))].
  intros D m HD. refine (near_finite_entries N A B (multiplies o v) (fun i j => entry_in (multiplies o v) (q i j) N (TNum <$> A) (TNum <$> B) i j) D HA HB HuA HuB HN _ HD). intros i j Hi Hj. apply order_adds; [by apply Hq|done..].
Qed.

(** ** The fused operation of the intrinsics on doubles *)
Lemma compiled_fma_dot (x y : nat -> binary64) l : compiled (fma_dot no_fma (fun k => TNum (x k)) (fun k => TNum (y k)) l) (fma_dot fma64 x y l).
Proof.
  unfold fma_dot. assert (H : forall l a b, compiled a b ->
    compiled (foldl (fun acc k => no_fma (TNum (x k)) (TNum (y k)) acc) a l) (foldl (fun acc k => fma64 (x k) (y k) acc) b l)).
  { clear l. induction l as [|k l IH]; intros a b Hab; [done|]. cbn [foldl]. apply IH. apply compiled_fma_l; [done|constructor|constructor]. }
  apply H. constructor.
Qed.
Lemma machine_compiled e v : compiled e v -> machine e v.
Proof. intros H. exists e. split; [constructor|done]. Qed.
Lemma near_compiled N (A B : list binary64) tr (f : nat -> nat -> term) (g : nat -> nat -> binary64) R :
  entries_add N A B tr f -> (forall i j, compiled (f i j) (g i j)) -> is_matrix N g R -> near_product tr N A B R.
Proof.
  intros Hf Hfg HR. destruct (is_matrix_exists N f) as [D HD]. apply (near_product_entries N A B tr f D Hf HD).
  destruct HD as [L1 H1], HR as [L2 H2]. apply Forall2_same_length_lookup_2; [lia|]. intros q d c Hd Hc.
  pose proof (lookup_lt_Some _ _ _ Hd) as Hlt. rewrite L1 in Hlt. destruct N as [|N]; [lia|].
  pose proof (Nat.div_mod q (S N) ltac:(lia)) as E.
  assert (Hi : q / S N < S N) by (apply Nat.div_lt_upper_bound; lia). assert (Hj : q mod S N < S N) by (apply Nat.mod_upper_bound; lia).
  specialize (H1 _ _ Hi Hj). specialize (H2 _ _ Hi Hj). replace (q / S N * S N + q mod S N) with q in H1, H2 by lia.
  pose proof (eq_trans (eq_sym Hd) H1) as [= ->]. pose proof (eq_trans (eq_sym Hc) H2) as [= ->]. apply machine_compiled, Hfg.
Qed.
Lemma fma_near N (A B R : list binary64) : is_matrix N (fma_entry fma64 N A B) R -> near_product false N A B R.
Proof.
  apply (near_compiled N A B false (fma_entry no_fma N (TNum <$> A) (TNum <$> B))); [apply add_fma|]. intros i j. unfold fma_entry.
  assert (E : fma_dot no_fma (ent N (TNum <$> A) i) (fun k => ent N (TNum <$> B) k j) (seq 0 N) =
    fma_dot no_fma (fun k => TNum (ent N A i k)) (fun k => TNum (ent N B k j)) (seq 0 N)).
  { apply foldl_ext'. intros a k. by rewrite !ent_terms. }
  rewrite E. apply compiled_fma_dot.
Qed.
Lemma compiled_foldl {X} (f : X -> term) (g : X -> binary64) l a b : (forall q, compiled (f q) (g q)) -> compiled a b ->
  compiled (foldl (fun acc q => nadd acc (f q)) a l) (foldl (fun acc q => nadd acc (g q)) b l).
Proof. intros Hfg. revert a b. induction l as [|q l IH]; intros a b Hab; [done|]. cbn [foldl]. apply IH. by constructor. Qed.
Lemma fma_lanes_near kc N (A B R : list binary64) : 0 < kc -> (4 | kc) -> (kc | N) ->
  is_matrix N (fma_lanes_entry fma64 kc N A B) R -> near_product true N A B R.
Proof.
  intros H1 H2 H3. apply (near_compiled N A B true (fma_lanes_entry no_fma kc N (TNum <$> A) (TNum <$> B))); [by apply add_fma_lanes|].
  intros i j. unfold fma_lanes_entry.
  assert (H : forall l a b, compiled a b ->
    compiled (foldl (fun acc q => foldl (fun acc l => nadd acc (fma_lane no_fma kc (ent N (TNum <$> A) i) (ent N (TNum <$> B) j) (q * kc) l)) acc (seq 0 4)) a l)
      (foldl (fun acc q => foldl (fun acc l => nadd acc (fma_lane fma64 kc (ent N A i) (ent N B j) (q * kc) l)) acc (seq 0 4)) b l)).
  { induction l as [|q l IH]; intros a b Hab; [done|]. apply IH. apply compiled_foldl; [|done]. intros l'. unfold fma_lane.
    set (X := fun r => ent N A i (q * kc + 4 * r + l')). set (Y := fun r => ent N B j (q * kc + 4 * r + l')).
    assert (E : fma_dot no_fma (fun r => ent N (TNum <$> A) i (q * kc + 4 * r + l')) (fun r => ent N (TNum <$> B) j (q * kc + 4 * r + l')) (seq 0 (kc / 4)) =
      fma_dot no_fma (fun r => TNum (X r)) (fun r => TNum (Y r)) (seq 0 (kc / 4))).
    { apply foldl_ext'. intros e r. by rewrite !ent_terms. }
    rewrite E. apply compiled_fma_dot. }
  apply H. constructor.
Qed.
