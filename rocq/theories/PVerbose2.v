(** Which blocks the lines of a verbose run are about. *)
From Coq Require Import ZArith Ascii String Psatz.
From Verif Require Import Base MPrint SpecPrint PPrint PTranscript PTranscript2 PCmdline2 PCmdline4 MTranscript MSchedule SpecSched PSchedule
  SpecCmdline SpecTranscript MVerbose SpecVerbose.
Local Open Scope string_scope.

(** * Counting *)
Lemma counts_app {A} (P : A -> Prop) l1 l2 n1 n2 : counts P l1 n1 -> counts P l2 n2 -> counts P (l1 ++ l2) (n1 + n2).
Proof. intros H H2. induction H; cbn [Datatypes.app Nat.add]; [exact H2|by constructor|by constructor]. Qed.
Lemma counts_none {A} (P : A -> Prop) l : Forall (fun a => ~ P a) l -> counts P l 0.
Proof. induction 1; by constructor. Qed.
Lemma counts_zero {A} (P : A -> Prop) l : counts P l 0 -> Forall (fun a => ~ P a) l.
Proof. intros H. remember 0 as n eqn:E. induction H; [constructor|discriminate|]. constructor; auto. Qed.
Lemma counts_perm {A} (P : A -> Prop) l l' n : l ≡ₚ l' -> counts P l n -> counts P l' n.
Proof.
  intros H. revert n. induction H as [|a l l' _ IH|a b l|l l' l'' _ IH1 _ IH2]; intros n Hn; [done| | |auto].
  - inversion Hn; subst; [apply counts_yes|apply counts_no]; auto.
  - inversion Hn as [|? ? m Pb Hm|? ? m Pb Hm]; subst; inversion Hm; subst; repeat first [apply counts_yes; [done|] | apply counts_no; [done|] | done].
Qed.
Lemma counts_flat {A B} (P : B -> Prop) (f : A -> list B) l n : (forall a, counts P (f a) n) -> counts P (flat_map f l) (length l * n).
Proof. intros H. induction l as [|a l IH]; [constructor|]. cbn [flat_map length Nat.mul]. by apply counts_app. Qed.
Lemma counts_unique {A} (P : A -> Prop) l n m : counts P l n -> counts P l m -> n = m.
Proof. intros H. revert m. induction H; intros k Hk; inversion Hk; subst; try done; f_equal; auto. Qed.

(** * What a line says *)
Lemma app_inj_r (a b c : string) : a ++ c = b ++ c -> a = b.
Proof.
  intros E. assert (L : String.length a = String.length b) by (apply (f_equal String.length) in E; rewrite !length_app in E; lia).
  revert b L E. induction a as [|x a IH]; intros [|y b] L E; try discriminate; [done|].
  change (String x (a ++ c) = String y (b ++ c)) in E. assert (x = y) as -> by congruence. f_equal. apply IH; [cbn in L; lia|congruence].
Qed.
Lemma first_colon c (u u' w w' : string) : has_char c u = false -> has_char c u' = false -> u ++ String c w = u' ++ String c w' -> u = u' /\ w = w'.
Proof.
  revert u'. induction u as [|x u IH]; intros [|y u'] H H' E.
  - split; [done|]. change (String c w = String c w') in E. congruence.
  - change (String c w = String y (u' ++ String c w')) in E. assert (c = y) as <- by congruence. rewrite has_cons, Ascii.eqb_refl in H'. discriminate.
  - change (String x (u ++ String c w) = String c w') in E. assert (x = c) as -> by congruence. rewrite has_cons, Ascii.eqb_refl in H. discriminate.
  - rewrite has_cons in H, H'. apply orb_false_iff in H as [_ H], H' as [_ H'].
    change (String x (u ++ String c w) = String y (u' ++ String c w')) in E. assert (x = y) as -> by congruence.
    destruct (IH u' H H') as [-> ->]; [congruence|done].
Qed.
Lemma decimal_has c s m : as_digit c = None -> decimal s m -> has_char c s = false.
Proof.
  intros Hc (n & _ & H). revert H. generalize 0%Z at 1 as a. generalize 0%Z as b. induction s as [|x s IH]; intros b a H; [done|].
  cbn [read_digits] in H. destruct (as_digit x) as [d|] eqn:E; [|discriminate]. rewrite has_cons. apply orb_false_iff. split; [|exact (IH _ _ H)].
  destruct (x =? c)%char eqn:Ex; [|done]. apply Ascii.eqb_eq in Ex as ->. congruence.
Qed.
Lemma decimal_fun s m m' : decimal s m -> decimal s m' -> m = m'.
Proof. intros (n & _ & E) (n' & _ & E'). assert (Z.of_N m = Z.of_N m') by congruence. lia. Qed.
Lemma says_inj line here here' x x' y y' n n' : ~ occurs ":" here -> ~ occurs ":" here' -> says line here x y n -> says line here' x' y' n' ->
  here = here' /\ x = x' /\ y = y' /\ n = n'.
Proof.
  intros Hh%has_false Hh'%has_false (sx & sy & sn & Dx & Dy & Dn & E) (sx' & sy' & sn' & Dx' & Dy' & Dn' & E'). rewrite E in E'. clear E.
  pose proof (decimal_has ":" _ _ eq_refl Dx) as Nx. pose proof (decimal_has ":" _ _ eq_refl Dx') as Nx'.
  pose proof (decimal_has ":" _ _ eq_refl Dy) as Ny. pose proof (decimal_has ":" _ _ eq_refl Dy') as Ny'.
  assert (F : forall h a b c, h ++ " work on x: " ++ a ++ ", y: " ++ b ++ " blockSize: " ++ c ++ newline =
    (h ++ " work on x") ++ String ":" (String " " ((a ++ ", y") ++ String ":" (String " " ((b ++ " blockSize") ++ String ":" (String " " (c ++ newline))))))).
  { intros. rewrite !append_assoc. reflexivity. }
  rewrite !F in E'. clear F.
  apply first_colon in E' as [E1 E2]; [|by rewrite has_app, ?Hh, ?Hh'..]. apply app_inj_r in E1.
  assert (E3 : forall a b, String " " a = String " " b -> a = b) by (intros; congruence).
  apply E3 in E2. apply first_colon in E2 as [E2 E4]; [|by rewrite has_app, ?Nx, ?Nx'..]. apply app_inj_r in E2.
  apply E3 in E4. apply first_colon in E4 as [E4 E5]; [|by rewrite has_app, ?Ny, ?Ny'..]. apply app_inj_r in E4.
  apply E3 in E5. apply app_inj_r in E5. subst. split; [done|].
  pose proof (decimal_fun _ _ _ Dx Dx'). pose proof (decimal_fun _ _ _ Dy Dy'). pose proof (decimal_fun _ _ _ Dn Dn'). lia.
Qed.
Lemma work_says here x y n : says (chunk_work here x y n) here x y n.
Proof.
  exists (show_nat x), (show_nat y), (show_nat n). unfold show_nat. repeat (split; [apply decimal_show|]).
  unfold chunk_work. cbn [put fold_right]. rewrite append_nil. reflexivity.
Qed.
(** A line about another block, or none at all *)
Lemma computes_work br i j here x y n : ~ occurs ":" here ->
  computes br i j (chunk_work here x y n) <-> n <= br /\ x <= i < x + n /\ y <= j < y + n.
Proof.
  intros Hh. split.
  - intros (h & x' & y' & n' & Hh' & Hs & H). destruct (says_inj _ _ _ _ _ _ _ _ _ Hh Hh' (work_says here x y n) Hs) as (_ & -> & -> & ->). exact H.
  - intros H. exists here, x, y, n. split; [exact Hh|]. split; [apply work_says|exact H].
Qed.
Lemma quiet_no_line br i j line : quiet " work on x" line -> ~ computes br i j line.
Proof.
  intros Hq (h & x & y & n & _ & (sx & sy & sn & _ & _ & _ & E) & _).
  assert (E' : line = (h ++ " work on x") ++ String ":" (String " " (sx ++ ", y: " ++ sy ++ " blockSize: " ++ sn ++ newline))).
  { rewrite E, !append_assoc. reflexivity. }
  exact (Hq _ _ E' h "" eq_refl).
Qed.
Lemma text_no_line br i j line : has_char ":" line = false -> ~ computes br i j line.
Proof. intros H. apply quiet_no_line. intros u w E. exfalso. apply has_false in H. apply H. by exists u, w. Qed.
Lemma large_no_line br i j n : ~ computes br i j (chunk_large n).
Proof. apply text_no_line. unfold chunk_large. cbn [put fold_right]. rewrite !has_app, (show_nat_has ":" _ eq_refl). reflexivity. Qed.

(** * The lines about a block *)
Section Trace.
  Context (br i j : nat) (here : string) (Hh : ~ occurs ":" here).
  Definition in_block (x y n : nat) : bool := ((x <=? i) && (i <? x + n) && (y <=? j) && (j <? y + n))%nat.
  Lemma in_block_spec x y n : in_block x y n = true <-> x <= i < x + n /\ y <= j < y + n.
  Proof. unfold in_block. rewrite !andb_true_iff, !Nat.leb_le, !Nat.ltb_lt. lia. Qed.
  Lemma in_block_false x y n : in_block x y n = false <-> ~ (x <= i < x + n /\ y <= j < y + n).
  Proof. rewrite <-in_block_spec. destruct (in_block x y n); split; congruence. Qed.

  (** Nothing outside *)
  Lemma trace_outside fuel x y n : in_block x y n = false -> counts (computes br i j) (trace fuel br here x y n) 0.
  Proof.
    revert x y n. induction fuel as [|fuel IH]; intros x y n Ho; apply in_block_false in Ho; cbn [trace].
    - apply counts_no; [|constructor]. rewrite computes_work by done. tauto.
    - apply counts_no; [rewrite computes_work by done; tauto|]. destruct (n <=? br)%nat; [constructor|]. apply counts_no; [apply large_no_line|].
      cbn [flat_map fst snd]. pose proof (Nat.div_mod n 2 ltac:(lia)) as Hn. set (m := n / 2) in *.
      assert (Hm : 2 * m <= n) by lia. clearbody m. rewrite List.app_nil_r.
      repeat apply (counts_app _ _ _ 0 0); apply IH; apply in_block_false; lia.
  Qed.
  Lemma trace_block fuel x y n : n <= fuel -> halves br n ->
    counts (computes br i j) (trace fuel br here x y n) (if in_block x y n then 1 else 0).
  Proof.
    revert x y n. induction fuel as [|fuel IH]; intros x y n Hf Hn.
    - assert (n = 0) as -> by lia. destruct (in_block x y 0) eqn:E; [apply in_block_spec in E; lia|]. by apply trace_outside.
    - destruct (in_block x y n) eqn:E; [|by apply trace_outside]. apply in_block_spec in E. cbn [trace].
      destruct (n <=? br)%nat eqn:Hl.
      + apply Nat.leb_le in Hl. apply counts_yes; [|constructor]. rewrite computes_work by done. tauto.
      + apply Nat.leb_gt in Hl. apply counts_no; [rewrite computes_work by done; lia|]. apply counts_no; [apply large_no_line|].
        destruct Hn as (m & [|d] & -> & Hm); [cbn in Hl; lia|].
        assert (Eh : m * 2 ^ S d / 2 = m * 2 ^ d). { rewrite Nat.pow_succ_r'. replace (m * (2 * 2 ^ d)) with (m * 2 ^ d * 2) by lia. rewrite Nat.div_mul; lia. }
        cbn zeta. rewrite Eh. assert (Es : m * 2 ^ S d = 2 * (m * 2 ^ d)) by (rewrite Nat.pow_succ_r'; lia). rewrite Es in E, Hf.
        assert (Hs : halves br (m * 2 ^ d)) by (by exists m, d). clear Eh Es Hl Hm. revert Hs E Hf. generalize (m * 2 ^ d) as h. intros h Hs E Hf.
        cbn [flat_map fst snd]. rewrite List.app_nil_r.
        assert (Hc : forall ox oy, counts (computes br i j) (trace fuel br here (x + ox) (y + oy) h) (if in_block (x + ox) (y + oy) h then 1 else 0))
          by (intros; apply IH; [lia|done]).
        pose proof (counts_app _ _ _ _ _ (Hc 0 0) (counts_app _ _ _ _ _ (Hc h 0) (counts_app _ _ _ _ _ (Hc 0 h) (Hc h h)))) as Hall.
        match type of Hall with counts _ _ ?c => assert (c = 1) as Ec end; [|by rewrite Ec in Hall].
        unfold in_block. destruct (Nat.leb_spec (x + 0) i), (Nat.ltb_spec i (x + 0 + h)), (Nat.leb_spec (y + 0) j), (Nat.ltb_spec j (y + 0 + h)),
          (Nat.leb_spec (x + h) i), (Nat.ltb_spec i (x + h + h)), (Nat.leb_spec (y + h) j), (Nat.ltb_spec j (y + h + h)); cbn; lia.
  Qed.
  (** A size that is odd loses its last entry. *)
  Lemma trace_odd fuel x y n : br < n -> Nat.odd n = true -> i = x + n - 1 -> j = y + n - 1 -> counts (computes br i j) (trace fuel br here x y n) 0.
  Proof.
    intros Hb Ho Hi Hj. assert (Hnl : n <= br <-> False) by lia. destruct fuel as [|fuel]; cbn [trace]; (apply counts_no; [rewrite computes_work by done; tauto|]); [constructor|].
    destruct (Nat.leb_spec n br); [lia|]. apply counts_no; [apply large_no_line|].
    apply Nat.odd_spec in Ho as [m Em]. assert (n / 2 = m) as -> by (rewrite Em, Nat.mul_comm, Nat.div_add_l by lia; change (1 / 2) with 0; lia).
    cbn [flat_map fst snd]. rewrite List.app_nil_r. repeat apply (counts_app _ _ _ 0 0); apply trace_outside; apply in_block_false; lia.
  Qed.
End Trace.

(** * The lines about the packages *)
Lemma packages_count br i j name all : (forall k, ~ occurs ":" (name k)) ->
  Forall (fun w => 0 <= wx w /\ 0 <= wy w /\ 0 <= wN w)%Z (concat all) ->
  Forall (fun w => halves br (Z.to_nat (wN w))) (concat all) ->
  counts (computes br i j) (packages_trace br name all) (hits (Z.of_nat i) (Z.of_nat j) (concat all)).
Proof.
  revert name. induction all as [|ws all IH]; intros name Hn Hp Hh; [constructor|].
  cbn [concat] in Hp, Hh |- *. apply Forall_app in Hp as [Hp Hps], Hh as [Hh Hhs]. rewrite hits_app.
  unfold packages_trace. rewrite imap_cons. cbn [concat]. apply counts_app.
  - clear IH Hps Hhs. induction ws as [|w ws IH]; [constructor|]. apply Forall_cons in Hp as [Hp Hps], Hh as [Hh Hhs].
    cbn [flat_map]. rewrite hits_cons. apply counts_app; [|by apply IH].
    pose proof (trace_block br i j (name 0) (Hn 0) (Z.to_nat (wN w)) (Z.to_nat (wx w)) (Z.to_nat (wy w)) _ (Nat.le_refl _) Hh) as H.
    unfold work_trace. destruct (decide (has w (Z.of_nat i) (Z.of_nat j))) as [D|D]; destruct (in_block _ _ _ _ _) eqn:E; try exact H; exfalso.
    + apply in_block_false in E. apply E. unfold has in D. lia.
    + apply in_block_spec in E. apply D. unfold has. lia.
  - apply IH; auto.
Qed.
