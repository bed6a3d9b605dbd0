(** Printing of numbers: ties and the form of the numerals. *)
From Coq Require Import ZArith Reals Lra Lia Ascii String.
From Flocq Require Import Core IEEE754.Binary IEEE754.Bits.
From Verif Require Import Base Tools MDouble MPrint SpecPrint PPrint PPrint2 MTranscript PTranscript SpecTranscript.
Local Open Scope Z_scope.

(** * Ties *)
Lemma nearest_tie num den : 0 < den -> 2 * Z.abs (nearest num den * den - num) = den -> Z.even (nearest num den) = true.
Proof.
  intros Hd. unfold nearest. pose proof (Z.div_mod num den ltac:(lia)) as H1. pose proof (Z.mod_pos_bound num den Hd) as H2.
  set (q := num / den) in *. set (r := num mod den) in *. clearbody q r.
  assert (forall k, (q + k) * den - num = k * den - r) as Hk by (intros; lia).
  destruct (Z.compare_spec (2 * r) den) as [E|E|E].
  - destruct (Z.even q) eqn:Eq; [done|]. intros _. rewrite Z.even_add, Eq. done.
  - intros H. pose proof (Hk 0) as H0. rewrite Z.add_0_r in H0. rewrite H0 in H. lia.
  - intros H. rewrite (Hk 1) in H. lia.
Qed.
Lemma nearest_tie_real num den : 0 < den -> (Rabs (IZR (nearest num den) - ratio num den) = / 2)%R -> Z.even (nearest num den) = true.
Proof.
  intros Hd H. apply nearest_tie; [done|]. pose proof (IZR_lt _ _ Hd) as Hd'. apply eq_IZR.
  rewrite mult_IZR, abs_IZR, minus_IZR, mult_IZR.
  replace (IZR (nearest num den) * IZR den - IZR num)%R with ((IZR (nearest num den) - ratio num den) * IZR den)%R by (unfold ratio; field; lra).
  rewrite Rabs_mult, H, (Rabs_pos_eq (IZR den)) by lra. lra.
Qed.
Lemma scaled_tie num den k : 0 < den -> (Rabs (IZR (scaled num den k) - ratio num den * bpow ten k) = / 2)%R -> Z.even (scaled num den k) = true.
Proof.
  intros Hd. pose proof (IZR_lt _ _ Hd) as Hd'. unfold scaled. destruct (Z.leb_spec 0 k) as [H|H].
  - rewrite bpow_ten by done. replace (ratio num den * IZR (10 ^ k))%R with (ratio (num * 10 ^ k) den).
    { by apply nearest_tie_real. } unfold ratio. rewrite mult_IZR. field. lra.
  - assert (0 < 10 ^ (- k))%Z as Hp by (apply Z.pow_pos_nonneg; lia). pose proof (IZR_lt _ _ Hp) as Hp'.
    assert (bpow ten k = / IZR (10 ^ (- k)))%R as ->.
    { rewrite <- bpow_ten by lia. rewrite <- bpow_opp, Z.opp_involutive. done. }
    replace (ratio num den * / IZR (10 ^ (- k)))%R with (ratio num (den * 10 ^ (- k))).
    { apply nearest_tie_real. lia. } unfold ratio. rewrite mult_IZR. field. split; lra.
Qed.

(** The digits as the multiple E of the unit in the last place of the number *)
Lemma decimal_tie P num den : (0 < P)%nat -> 0 < num -> 0 < den ->
  let '(D, X) := decimal P num den in
  exists E k, (bpow ten (Z.of_nat P - 1 + k) <= ratio num den < bpow ten (Z.of_nat P + k))%R /\
    (IZR D * bpow ten (X - Z.of_nat P + 1) = IZR E * bpow ten k)%R /\
    (Rabs (IZR E * bpow ten k - ratio num den) <= / 2 * bpow ten k)%R /\
    ((Rabs (IZR E * bpow ten k - ratio num den) = / 2 * bpow ten k)%R -> Z.even E = true).
Proof.
  intros HP Hn Hd. unfold decimal. pose proof (log10_spec num den Hn Hd) as L.
  set (X0 := log10 num den) in *. clearbody X0. set (p := Z.of_nat P) in *. assert (1 <= p)%Z as Hp by lia. clearbody p.
  fold (scaled num den (p - 1 - X0)). pose proof (scaled_real num den (p - 1 - X0) Hd) as HD.
  pose proof (scaled_tie num den (p - 1 - X0) Hd) as HT.
  set (D := scaled _ _ _) in *. clearbody D. set (x := ratio num den) in *. clearbody x.
  assert (bpow ten (X0 - p + 1) * bpow ten (p - 1 - X0) = 1)%R as Hu.
  { rewrite <- bpow_plus. replace (X0 - p + 1 + (p - 1 - X0))%Z with 0%Z by lia. done. }
  pose proof (bpow_ten_pos (X0 - p + 1)) as Hpos'.
  assert (forall Y, Y = (IZR D * bpow ten (X0 - p + 1))%R -> exists E k, (bpow ten (p - 1 + k) <= x < bpow ten (p + k))%R /\
    (Y = IZR E * bpow ten k)%R /\ (Rabs (IZR E * bpow ten k - x) <= / 2 * bpow ten k)%R /\
    ((Rabs (IZR E * bpow ten k - x) = / 2 * bpow ten k)%R -> Z.even E = true)) as Hall.
  { intros Y ->. exists D, (X0 - p + 1). split.
    { replace (p - 1 + (X0 - p + 1)) with X0 by lia. by replace (p + (X0 - p + 1)) with (X0 + 1) by lia. }
    split; [done|].
    assert (Rabs (IZR D * bpow ten (X0 - p + 1) - x) = Rabs (IZR D - x * bpow ten (p - 1 - X0)) * bpow ten (X0 - p + 1))%R as E.
    { rewrite <- (Rabs_pos_eq (bpow ten (X0 - p + 1))) at 2 by lra. rewrite <- Rabs_mult. f_equal.
      rewrite Rmult_minus_distr_r. f_equal. rewrite Rmult_assoc, (Rmult_comm (bpow ten (p - 1 - X0))), Hu. ring. }
    rewrite E. split.
    - apply Rmult_le_compat_r; lra.
    - intros H. apply HT. apply (Rmult_eq_reg_r (bpow ten (X0 - p + 1))); [done|lra]. }
  destruct (Z.eqb_spec D (10 ^ p)) as [->|Hne]; apply Hall; [|done].
  rewrite <- !bpow_ten, <- !bpow_plus by lia. f_equal. lia.
Qed.

(** * The form *)
Definition unit_char (c : ascii) : Prop := (c =? "e")%char = false /\ (c =? ".")%char = false /\ (c =? "-")%char = false.
Lemma digit_cases d : is_digit d -> unit_char (digit d) /\ ((digit d =? "0")%char = (d =? 0)) /\ as_digit (digit d) <> None.
Proof.
  intros H. assert (d = 0 \/ d = 1 \/ d = 2 \/ d = 3 \/ d = 4 \/ d = 5 \/ d = 6 \/ d = 7 \/ d = 8 \/ d = 9) as Hd by (red in H; lia).
  destruct_or! Hd; subst; by vm_compute.
Qed.
Definition zero_end (b : bool) (ds : list Z) : bool := match last ds with Some d => d =? 0 | None => b end.
Lemma zero_end_cons b d ds : zero_end b (d :: ds) = zero_end (d =? 0) ds.
Proof. unfold zero_end. destruct ds; [done|]. rewrite last_cons_cons. destruct (last _) eqn:E; [done|]. by apply last_None in E. Qed.
Lemma tidy_text p b ds s : Forall is_digit ds -> tidy p b (text ds ++ s) = tidy p (zero_end b ds) s.
Proof.
  revert b; induction ds as [|d ds IH]; intros b Hd; [done|]. apply Forall_cons in Hd as [H1 H2].
  destruct (digit_cases d H1) as ((E1&E2&_)&E3&_).
  change (tidy p b (text (d :: ds) ++ s)) with
    (if (digit d =? "e")%char then negb (p && b) else if (digit d =? ".")%char then tidy true true (text ds ++ s) else tidy p (digit d =? "0")%char (text ds ++ s)).
  rewrite E1, E2, E3, IH by done. by rewrite zero_end_cons.
Qed.
Lemma strip_last ds d : last (strip ds) = Some d -> d <> 0.
Proof.
  revert d; induction ds as [|e ds IH]; intros d; [done|]. cbn [strip]. destruct (strip ds) as [|f r] eqn:E.
  - destruct (Z.eqb_spec e 0); [done|]. by intros [= <-].
  - rewrite last_cons_cons. apply IH.
Qed.
Lemma tidy_end p b s : exponent_or_end s -> tidy p b s = negb (p && b).
Proof. destruct s as [|c s]; [done|]. intros ->. done. Qed.
Lemma tidy_with_point i f s : Forall is_digit i -> Forall is_digit f -> exponent_or_end s ->
  tidy false false (with_point i f ++ s) = true.
Proof.
  intros Hi Hf Hs. unfold with_point. pose proof (strip_range f Hf) as Hr. pose proof (strip_last f) as Hl.
  rewrite append_assoc, tidy_text by done. destruct (strip f) as [|d r].
  - change ("" ++ s)%string with s. by rewrite tidy_end.
  - rewrite append_assoc. change (tidy true true (text (d :: r) ++ s) = true). rewrite tidy_text, tidy_end by done.
    unfold zero_end. destruct (last (d :: r)) as [e|] eqn:E; [|by apply last_None in E].
    specialize (Hl e eq_refl). apply Z.eqb_neq in Hl. by rewrite Hl.
Qed.
Lemma no_e_text ds : Forall is_digit ds -> has_char "e" (text ds) = false.
Proof.
  induction ds as [|d ds IH]; intros Hd; [done|]. apply Forall_cons in Hd as [H1 H2].
  destruct (digit_cases d H1) as ((E1&_)&_). change ((digit d =? "e")%char || has_char "e" (text ds) = false). by rewrite E1, IH.
Qed.
Lemma no_e_with_point i f : Forall is_digit i -> Forall is_digit f -> has_char "e" (with_point i f) = false.
Proof.
  intros Hi Hf. unfold with_point. pose proof (strip_range f Hf) as Hr. rewrite has_app, no_e_text by done.
  destruct (strip f) as [|d r]; [done|]. rewrite has_app, no_e_text by done. done.
Qed.
Lemma after_point f s : exponent_or_end s -> no_digit (match strip f with [] => "" | g => "." ++ text g end ++ s).
Proof. intros Hs. destruct (strip f); [by apply exponent_no_digit|done]. Qed.

(** A text that starts with a digit *)
Lemma no_sign d s : is_digit d -> without_sign (String (digit d) s) = String (digit d) s.
Proof.
  intros H. assert (d = 0 \/ d = 1 \/ d = 2 \/ d = 3 \/ d = 4 \/ d = 5 \/ d = 6 \/ d = 7 \/ d = 8 \/ d = 9) as Hd by (red in H; lia).
  destruct_or! Hd; subst; reflexivity.
Qed.
Definition starts (s : string) : Prop := exists d r, is_digit d /\ s = String (digit d) r /\ (d = 0 -> no_digit r).
Lemma starts_leading s : starts s -> no_leading_zero s.
Proof.
  intros (d&r&Hd&->&Hz). unfold no_leading_zero. rewrite no_sign by done.
  assert (d = 0 \/ d = 1 \/ d = 2 \/ d = 3 \/ d = 4 \/ d = 5 \/ d = 6 \/ d = 7 \/ d = 8 \/ d = 9) as Hc by (red in Hd; lia).
  destruct_or! Hc; subst; try exact I. destruct r as [|c r]; [done|]. exact (Hz eq_refl).
Qed.
Lemma starts_sign s : starts s -> without_sign s = s.
Proof. intros (d&r&Hd&->&_). by apply no_sign. Qed.

Lemma digits_lead P D : (0 < P)%nat -> 10 ^ (Z.of_nat P - 1) <= D < 10 ^ Z.of_nat P ->
  exists d r, digits P D = d :: r /\ is_digit d /\ d <> 0.
Proof.
  intros HP HD. assert (0 <= D < 10 ^ Z.of_nat P) as HD'.
  { split; [|apply HD]. transitivity (10 ^ (Z.of_nat P - 1)); [apply Z.pow_nonneg; lia|apply HD]. }
  pose proof (digits_from P D HD') as Hf. pose proof (digits_range P D) as Hr. pose proof (digits_length P D) as Hl.
  destruct (digits P D) as [|d r]; [cbn in Hl; lia|]. exists d, r. apply Forall_cons in Hr as [H1 H2]. split_and!; [done..|].
  intros ->. change (from 0 (0 :: r)) with (from 0 r) in Hf. pose proof (from_nonneg r H2) as Hb. cbn [length] in Hl.
  replace (Z.of_nat P - 1) with (Z.of_nat (length r)) in HD by lia. lia.
Qed.

Lemma show_digits_form P D X : (0 < P)%nat -> 10 ^ (Z.of_nat P - 1) <= D < 10 ^ Z.of_nat P -> Z.abs X < 1000 ->
  let s := show_digits P D X in
  tidy false false s = true /\ has_char "e" s = (X <? -4) || (Z.of_nat P <=? X) /\ starts s /\
  (has_char "e" s = true -> one_digit s).
Proof.
  intros HP HD HX s. subst s. destruct (digits_lead P D HP HD) as (d&r&E&Hd&Hd0).
  pose proof (digits_range P D) as Hr. unfold show_digits. rewrite E in *.
  destruct ((X <? -4) || (Z.of_nat P <=? X)) eqn:E1; [|destruct (Z.ltb_spec X 0)].
  - assert (exponent_or_end (show_exponent X)) as Hx by done.
    assert (no_digit (match strip (drop 1 (d :: r)) with [] => "" | g => "." ++ text g end ++ show_exponent X)) as Hn by by apply after_point.
    assert (with_point (take 1 (d :: r)) (drop 1 (d :: r)) ++ show_exponent X =
      String (digit d) (match strip (drop 1 (d :: r)) with [] => "" | g => "." ++ text g end ++ show_exponent X))%string as Es by done.
    split_and!.
    + apply tidy_with_point; [by apply Forall_take|by apply Forall_drop|done].
    + rewrite has_app. replace (has_char "e" (show_exponent X)) with true by done. by rewrite orb_true_r.
    + rewrite Es. eexists _, _. by split_and!.
    + intros _. rewrite Es. unfold one_digit. rewrite no_sign by done.
      set (t := (match strip (drop 1 (d :: r)) with [] => "" | g => "." ++ text g end ++ show_exponent X)%string) in *.
      assert (t <> "")%string as Ht by (subst t; destruct (strip (drop 1 (d :: r))); done). clearbody t.
      destruct t as [|c t]; [done|]. split; [|done]. intros Ec. destruct (digit_cases d Hd) as (_&E3&_).
      rewrite Ec in E3. cbn in E3. symmetry in E3. by apply Z.eqb_eq in E3.
  - assert (Forall is_digit [0]) as H0 by (constructor; [red; lia|constructor]).
    assert (Forall is_digit (replicate (Z.to_nat (- X - 1)) 0 ++ d :: r)) as Hf.
    { apply Forall_app; split; [|done]. apply Forall_replicate. red; lia. }
    rewrite <- (append_nil (with_point _ _)). split_and!.
    + by apply tidy_with_point.
    + by rewrite append_nil, no_e_with_point.
    + exists 0, (match strip (replicate (Z.to_nat (- X - 1)) 0%Z ++ d :: r) with [] => "" | g => "." ++ text g end ++ "")%string.
      split; [red; lia|]. split; [done|]. intros _. by apply after_point.
    + rewrite append_nil, no_e_with_point by done. done.
  - assert (Forall is_digit (take (Z.to_nat (X + 1)) (d :: r))) as H1 by by apply Forall_take.
    assert (Forall is_digit (drop (Z.to_nat (X + 1)) (d :: r))) as H2 by by apply Forall_drop.
    rewrite <- (append_nil (with_point _ _)). split_and!.
    + by apply tidy_with_point.
    + by rewrite append_nil, no_e_with_point.
    + replace (Z.to_nat (X + 1)) with (S (Z.to_nat X)) by lia. cbn [take].
      eexists d, _. split; [done|]. split; [reflexivity|]. done.
    + rewrite append_nil, no_e_with_point by done. done.
Qed.

Lemma show_form P m e : (0 < P)%nat -> SpecFloat.bounded 53 1024 m e = true ->
  let x := F2R (Float radix2 (Z.pos m) e) in
  let '(D, X) := decimal P (Z.pos m * 2 ^ Z.max 0 e) (2 ^ Z.max 0 (- e)) in
  let s := show_digits P D X in
  (exists a k, read_unsigned s = Some (a, k) /\
    ((bpow ten (-4) <= IZR a * bpow ten k < bpow ten (Z.of_nat P))%R <-> has_char "e" s = false) /\ (0 < IZR a * bpow ten k)%R /\
    exists E u, (IZR a * bpow ten k = IZR E * bpow ten u)%R /\ (bpow ten (Z.of_nat P - 1 + u) <= x < bpow ten (Z.of_nat P + u))%R /\
      (Rabs (IZR E * bpow ten u - x) <= / 2 * bpow ten u)%R /\ ((Rabs (IZR E * bpow ten u - x) = / 2 * bpow ten u)%R -> Z.even E = true)) /\
  tidy false false s = true /\ starts s /\ (has_char "e" s = true -> one_digit s).
Proof.
  intros HP Hb x. pose proof (double_bounds m e Hb) as Hx. fold x in Hx.
  assert (0 < Z.pos m * 2 ^ Z.max 0 e) as Hn by (apply Z.mul_pos_pos; [lia|]; apply Z.pow_pos_nonneg; lia).
  assert (0 < 2 ^ Z.max 0 (- e)) as Hd0 by (apply Z.pow_pos_nonneg; lia).
  pose proof (decimal_spec P _ _ HP Hn Hd0) as Hd. pose proof (decimal_tie P _ _ HP Hn Hd0) as Ht.
  rewrite ratio_double in Hd, Ht. fold x in Hd, Ht.
  destruct (decimal P _ _) as [D X]. destruct Hd as (HD&X0&HX&Hx0&He). destruct Ht as (E&u&Hu1&Hu2&Hu3&Hu4).
  clearbody x.
  assert (X0 < 400) by (apply (lt_bpow ten); lra). assert (-400 < X0 + 1) by (apply (lt_bpow ten); lra).
  destruct (show_digits_form P D X HP HD ltac:(lia)) as (F1&F2&F3&F4). split; [|done].
  destruct (show_digits_denotes P D X HP) as (a&k&Hr&Hv).
  { split; [|apply HD]. transitivity (10 ^ (Z.of_nat P - 1)); [apply Z.pow_nonneg; lia|apply HD]. } { lia. }
  exists a, k. split; [done|]. rewrite Hv.
  assert (bpow ten X <= IZR D * bpow ten (X - Z.of_nat P + 1) < bpow ten (X + 1))%R as Hrange.
  { destruct HD as [HD1 HD2]. apply IZR_le in HD1. apply IZR_lt in HD2. rewrite <- bpow_ten in HD1, HD2 by lia.
    set (u' := X - Z.of_nat P + 1) in *. pose proof (bpow_ten_pos u') as Hp.
    replace (bpow ten X) with (bpow ten (Z.of_nat P - 1) * bpow ten u')%R by (rewrite <- bpow_plus; f_equal; lia).
    replace (bpow ten (X + 1)) with (bpow ten (Z.of_nat P) * bpow ten u')%R by (rewrite <- bpow_plus; f_equal; lia).
    split; [apply Rmult_le_compat_r; lra|apply Rmult_lt_compat_r; lra]. }
  split_and!.
  - rewrite F2, orb_false_iff, Z.ltb_ge, Z.leb_gt. split.
    + intros [H1 H2]. assert (-4 < X + 1) by (apply (lt_bpow ten); lra). assert (X < Z.of_nat P) by (apply (lt_bpow ten); lra). lia.
    + intros [H1 H2]. split; [apply (bpow_le ten) in H1; lra|].
      eapply Rlt_le_trans; [apply Hrange|]. apply bpow_le. lia.
  - eapply Rlt_le_trans; [apply (bpow_ten_pos X)|apply Hrange].
  - exists E, u. split; [exact Hu2|]. split; [exact Hu1|]. split; [exact Hu3|exact Hu4].
Qed.

Lemma show64_form P x : (0 < P)%nat -> finite64 x = true -> (val64 x <> 0)%R ->
  tidy false false (show64 P x) = true /\ no_leading_zero (show64 P x) /\
  exists v, denotes (show64 P x) v /\ (~ occurs "e" (show64 P x) <-> (bpow ten (-4) <= Rabs v < bpow ten (Z.of_nat P))%R) /\
    (occurs "e" (show64 P x) -> one_digit (show64 P x)).
Proof.
  intros HP Hf Hx. destruct x as [s|s|s pl Hpl|s m e Hb]; try discriminate Hf; [done|].
  pose proof (show_form P m e HP Hb) as H. cbv zeta in H. unfold show64.
  destruct (decimal P _ _) as [D X]. destruct H as ((a&k&Hr&He&Hp&_)&H1&H2&H3).
  pose proof (starts_sign _ H2) as Hs. pose proof (starts_leading _ H2) as Hl.
  destruct s.
  - change ("-" ++ show_digits P D X)%string with (String "-" (show_digits P D X)).
    split; [exact H1|]. split; [unfold no_leading_zero in *; by rewrite Hs in Hl|].
    exists (- (IZR a * bpow ten k))%R. split; [|split].
    + exists (- a), k. split; [cbn [read]; by rewrite Hr|rewrite opp_IZR; ring].
    + rewrite <- has_false, Rabs_Ropp, Rabs_pos_eq by lra. by rewrite He.
    + rewrite <- has_spec. intros H. change (has_char "e" (show_digits P D X) = true) in H. specialize (H3 H). unfold one_digit in *. by rewrite Hs in H3.
  - change ("" ++ show_digits P D X)%string with (show_digits P D X).
    split; [exact H1|]. split; [done|].
    exists (IZR a * bpow ten k)%R. split; [|split].
    + exists a, k. split; [|done]. rewrite read_positive; [done|]. by rewrite Hr.
    + rewrite <- has_false, Rabs_pos_eq by lra. by rewrite He.
    + rewrite <- has_spec. done.
Qed.
Lemma show64_half_even P x : (0 < P)%nat -> finite64 x = true -> (val64 x <> 0)%R ->
  exists E u, denotes (show64 P x) (IZR E * bpow ten u) /\
    (bpow ten (Z.of_nat P - 1 + u) <= Rabs (val64 x) < bpow ten (Z.of_nat P + u))%R /\
    (Rabs (IZR E * bpow ten u - val64 x) <= / 2 * bpow ten u)%R /\
    ((Rabs (IZR E * bpow ten u - val64 x) = / 2 * bpow ten u)%R -> Z.Even E).
Proof.
  intros HP Hf Hx. destruct x as [s|s|s pl Hpl|s m e Hb]; try discriminate Hf; [done|].
  pose proof (show_form P m e HP Hb) as H. cbv zeta in H. unfold show64, B2R.
  assert (0 < F2R (Float radix2 (Z.pos m) e))%R as Hpos by (by apply F2R_gt_0).
  destruct (decimal P _ _) as [D X]. destruct H as ((a&k&Hr&_&_&E&u&H1&H2&H3&H4)&_).
  destruct s.
  - exists (- E), u. change (cond_Zopp true (Z.pos m)) with (- Z.pos m). rewrite F2R_Zopp, opp_IZR.
    rewrite Rabs_Ropp, (Rabs_pos_eq (F2R _)) by lra.
    replace (- IZR E * bpow ten u - - F2R (Float radix2 (Z.pos m) e))%R with (- (IZR E * bpow ten u - F2R (Float radix2 (Z.pos m) e)))%R by ring.
    rewrite Rabs_Ropp. split_and!; try done; [|apply H2..|].
    + exists (- a), k. split; [|rewrite opp_IZR; lra].
      change ("-" ++ show_digits P D X)%string with (String "-" (show_digits P D X)). cbn [read]. by rewrite Hr.
    + intros H. apply Z.even_spec. rewrite Z.even_opp. by apply H4.
  - exists E, u. change (cond_Zopp false (Z.pos m)) with (Z.pos m). rewrite (Rabs_pos_eq (F2R _)) by lra.
    split_and!; try done; [|apply H2..|].
    + exists a, k. split; [|lra]. change ("" ++ show_digits P D X)%string with (show_digits P D X).
      rewrite read_positive; [done|]. by rewrite Hr.
    + intros H. apply Z.even_spec. by apply H4.
Qed.
