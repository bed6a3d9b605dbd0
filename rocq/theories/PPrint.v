(** Printing of numbers: digits and numerals. *)
From Coq Require Import ZArith Reals Lra Lia Ascii String.
From Flocq Require Import Core IEEE754.Binary IEEE754.Bits.
From Verif Require Import Base Tools MDouble MPrint SpecPrint.
Local Open Scope Z_scope.

(** * Digits *)
Definition from (m : Z) (ds : list Z) : Z := foldl (fun m d => 10 * m + d) m ds.
Definition is_digit (d : Z) : Prop := 0 <= d < 10.

Lemma from_app m ds es : from m (ds ++ es) = from (from m ds) es.
Proof. apply foldl_app. Qed.
Lemma from_shift m ds : from m ds = m * 10 ^ Z.of_nat (length ds) + from 0 ds.
Proof.
  revert m. induction ds as [|d ds IH]; intros m; cbn [from foldl length].
  - unfold from; cbn. lia.
  - fold (from (10 * m + d) ds). change (foldl _ (10 * 0 + d) ds) with (from (10 * 0 + d) ds).
    rewrite (IH (10 * m + d)), (IH (10 * 0 + d)). rewrite Nat2Z.inj_succ, Z.pow_succ_r by lia. ring.
Qed.
Lemma from_zeros m n : from m (replicate n 0) = m * 10 ^ Z.of_nat n.
Proof.
  revert m; induction n as [|n IH]; intros m; cbn [replicate]; [unfold from; cbn; lia|].
  change (from m (0 :: replicate n 0)) with (from (10 * m + 0) (replicate n 0)).
  rewrite IH, Nat2Z.inj_succ, Z.pow_succ_r by lia. ring.
Qed.
Lemma digits_length n d : length (digits n d) = n.
Proof. revert d; induction n as [|n IH]; intros d; cbn; [done|]. rewrite app_length, IH. cbn. lia. Qed.
Lemma digits_range n d : Forall is_digit (digits n d).
Proof.
  revert d; induction n as [|n IH]; intros d; cbn [digits]; [constructor|].
  apply Forall_app; split; [done|]. constructor; [|constructor]. apply Z.mod_pos_bound. lia.
Qed.
Lemma digits_from n d : 0 <= d < 10 ^ Z.of_nat n -> from 0 (digits n d) = d.
Proof.
  revert d; induction n as [|n IH]; intros d Hd; cbn [digits].
  - cbn in *. lia.
  - rewrite from_app. rewrite Nat2Z.inj_succ, Z.pow_succ_r in Hd by lia.
    rewrite IH. 2:{ split; [apply Z.div_pos; lia|]. apply Z.div_lt_upper_bound; lia. }
    cbn. pose proof (Z.div_mod d 10 ltac:(lia)). lia.
Qed.
Lemma from_nonneg ds : Forall is_digit ds -> 0 <= from 0 ds < 10 ^ Z.of_nat (length ds).
Proof.
  induction ds as [|d ds IH] using rev_ind; intros Hd; [cbn; lia|].
  apply Forall_app in Hd as [H1 H2]. apply Forall_cons in H2 as [H2 _]. specialize (IH H1).
  rewrite from_app, app_length, Nat2Z.inj_add. cbn [length]. change (Z.of_nat 1) with 1.
  rewrite Z.pow_add_r by lia. cbn. red in H2. lia.
Qed.
Lemma strip_spec ds : exists n, ds = strip ds ++ replicate n 0.
Proof.
  induction ds as [|d ds [n IH]]; [by exists 0%nat|]. cbn [strip].
  destruct (strip ds) as [|e r] eqn:E.
  - destruct (Z.eqb_spec d 0) as [->|].
    + exists (S n). rewrite IH. done.
    + exists n. rewrite IH at 1. done.
  - exists n. rewrite IH at 1. done.
Qed.
Lemma strip_range ds : Forall is_digit ds -> Forall is_digit (strip ds).
Proof. destruct (strip_spec ds) as [n Hn]. intros H. rewrite Hn in H. by apply Forall_app in H as [? _]. Qed.

(** * Reading back *)
Lemma as_digit_digit d : is_digit d -> as_digit (digit d) = Some d.
Proof.
  intros H. assert (d = 0 \/ d = 1 \/ d = 2 \/ d = 3 \/ d = 4 \/ d = 5 \/ d = 6 \/ d = 7 \/ d = 8 \/ d = 9) as Hd by (red in H; lia).
  destruct_or! Hd; subst; reflexivity.
Qed.
Definition no_digit (s : string) : Prop :=
  match s with EmptyString => True | String c _ => as_digit c = None end.
Lemma read_text ds s m n : Forall is_digit ds -> no_digit s ->
  read_digits m n (text ds ++ s) = (from m ds, n + Z.of_nat (length ds), s).
Proof.
  intros Hd Hs. revert m n. induction ds as [|d ds IH]; intros m n.
  - change (text [] ++ s)%string with s. cbn [length]. rewrite Z.add_0_r. destruct s as [|c s]; [done|].
    cbn [read_digits]. red in Hs. by rewrite Hs.
  - apply Forall_cons in Hd as [H1 H2]. change (text (d :: ds) ++ s)%string with (String (digit d) (text ds ++ s)). cbn [read_digits]. rewrite as_digit_digit by done.
    rewrite IH by done. cbn [length]. rewrite Nat2Z.inj_succ. change (from m (d :: ds)) with (from (10 * m + d) ds).
    f_equal. f_equal. lia.
Qed.
(** What may follow the digits of a numeral *)
Definition exponent_or_end (s : string) : Prop :=
  match s with EmptyString => True | String c _ => c = "e"%char end.
Lemma exponent_no_digit s : exponent_or_end s -> no_digit s.
Proof. destruct s as [|c s]; [done|]. cbn. by intros ->. Qed.

Lemma append_assoc (a b c : string) : ((a ++ b) ++ c = a ++ (b ++ c))%string.
Proof. induction a as [|x a IH]; [done|]. apply (f_equal (String x)), IH. Qed.
Lemma append_nil (a : string) : (a ++ "" = a)%string.
Proof. induction a as [|x a IH]; [done|]. apply (f_equal (String x)), IH. Qed.

Lemma read_with_point i f s : Forall is_digit i -> Forall is_digit f -> i <> [] -> exponent_or_end s ->
  exists k m, read_unsigned (with_point i f ++ s) = read_exponent m (- k) s /\
    from 0 (i ++ f) = m * 10 ^ (Z.of_nat (length f) - k) /\ 0 <= k <= Z.of_nat (length f).
Proof.
  intros Hi Hf Hne Hs. unfold with_point. destruct (strip_spec f) as [n Hn].
  pose proof (strip_range f Hf) as Hf'. assert (Z.of_nat (length i) <> 0) as Hl.
  { destruct i; [done|]. cbn [length]. lia. }
  destruct (strip f) as [|d r] eqn:E.
  - exists 0, (from 0 i). rewrite append_assoc. change ("" ++ s)%string with s.
    unfold read_unsigned. rewrite read_text by (try done; by apply exponent_no_digit).
    rewrite Z.add_0_l. destruct (Z.eqb_spec (Z.of_nat (length i)) 0); [done|].
    split_and!; [| |lia|lia].
    + destruct s as [|c s]; [done|]. cbn in Hs. by subst c.
    + change ([] ++ replicate n 0) with (replicate n 0) in Hn. rewrite from_app, Hn, from_zeros, replicate_length.
      f_equal. f_equal. lia.
  - exists (Z.of_nat (length (d :: r))), (from 0 (i ++ (d :: r))). rewrite !append_assoc.
    unfold read_unsigned. rewrite read_text; [|done|reflexivity].
    rewrite Z.add_0_l. destruct (Z.eqb_spec (Z.of_nat (length i)) 0); [done|].
    change ("." ++ (text (d :: r) ++ s))%string with (String "." (text (d :: r) ++ s)). cbv iota beta.
    rewrite read_text by (try done; by apply exponent_no_digit). rewrite Z.add_0_l.
    destruct (Z.eqb_spec (Z.of_nat (length (d :: r))) 0) as [H0|_]; [cbn [length] in H0; lia|].
    rewrite (from_app 0 i (d :: r)). split; [done|].
    assert (length f = length (d :: r) + n)%nat as Hlf by (rewrite Hn, app_length, replicate_length; done).
    split; [|rewrite Hlf; lia].
    rewrite Hn at 1. rewrite !from_app, from_zeros. f_equal. f_equal. rewrite Hlf. lia.
Qed.
Lemma read_show_exponent X m k : Z.abs X < 1000 -> read_exponent m k (show_exponent X) = Some (m, k + X).
Proof.
  intros HX. unfold show_exponent.
  assert (forall c, read_exponent m k (String "e" (String c (text (digits (if Z.abs X <? 100 then 2 else 3) (Z.abs X))))) =
    if (c =? "+")%char then Some (m, k + Z.abs X) else if (c =? "-")%char then Some (m, k - Z.abs X) else None) as H.
  { intros c. unfold read_exponent. rewrite <- (append_nil (text _)), read_text by (try done; apply digits_range).
    rewrite digits_length, digits_from.
    - rewrite Z.add_0_l. by destruct (Z.abs X <? 100).
    - destruct (Z.ltb_spec (Z.abs X) 100); cbn; lia. }
  destruct (Z.ltb_spec X 0).
  - etransitivity; [exact (H "-"%char)|]. cbn. do 2 f_equal. lia.
  - etransitivity; [exact (H "+"%char)|]. cbn. do 2 f_equal. lia.
Qed.

Lemma bpow_ten k : 0 <= k -> bpow ten k = IZR (10 ^ k).
Proof. intros H. rewrite <- IZR_Zpower by done. done. Qed.
Lemma bpow_ten_pos k : (0 < bpow ten k)%R.
Proof. apply bpow_gt_0. Qed.

(** The text of the digits D with leading exponent X denotes D * 10^(X-P+1). *)
Lemma show_digits_denotes P D X : (0 < P)%nat -> 0 <= D < 10 ^ Z.of_nat P -> Z.abs X < 1000 ->
  exists m k, read_unsigned (show_digits P D X) = Some (m, k) /\
    (IZR m * bpow ten k = IZR D * bpow ten (X - Z.of_nat P + 1))%R.
Proof.
  intros HP HD HX. unfold show_digits.
  pose proof (digits_range P D) as Hr. pose proof (digits_length P D) as Hl. pose proof (digits_from P D HD) as Hv.
  set (ds := digits P D) in *. clearbody ds.
  assert (forall m e a b, 0 <= a -> from 0 ds = m * 10 ^ a -> e = b + a ->
    (IZR m * bpow ten e = IZR D * bpow ten b)%R) as Hfin.
  { intros m e a b Ha Hm ->. rewrite <- Hv, Hm, mult_IZR, <- (bpow_ten a) by done. rewrite bpow_plus. ring. }
  destruct ((X <? -4) || (Z.of_nat P <=? X)) eqn:E1; [|destruct (Z.ltb_spec X 0)].
  - destruct (read_with_point (take 1 ds) (drop 1 ds) (show_exponent X)) as (k&m&Hread&Hm&Hk).
    { by apply Forall_take. } { by apply Forall_drop. } { destruct ds; cbn in *; [lia|done]. } { done. }
    rewrite take_drop, drop_length in Hm. rewrite drop_length in Hk.
    rewrite Hread, read_show_exponent by done. eexists _, _. split; [done|].
    eapply (Hfin m _ (Z.of_nat (length ds - 1) - k)); [lia|exact Hm|lia].
  - destruct (read_with_point [0] (replicate (Z.to_nat (- X - 1)) 0 ++ ds) "") as (k&m&Hread&Hm&Hk).
    { constructor; [red; lia|constructor]. } { apply Forall_app; split; [|done]. apply Forall_replicate. red; lia. } { done. } { done. }
    rewrite append_nil in Hread. rewrite Hread. cbn [read_exponent]. eexists _, _. split; [done|].
    rewrite app_length, replicate_length in Hm, Hk.
    eapply (Hfin m _ (Z.of_nat (Z.to_nat (- X - 1) + length ds) - k)); [lia| |lia].
    rewrite <- Hm, !from_app, from_zeros. cbn. done.
  - apply orb_false_iff in E1 as [_ E1]. apply Z.leb_gt in E1.
    destruct (read_with_point (take (Z.to_nat (X + 1)) ds) (drop (Z.to_nat (X + 1)) ds) "") as (k&m&Hread&Hm&Hk).
    { by apply Forall_take. } { by apply Forall_drop. }
    { intros H0. apply (f_equal length) in H0. rewrite take_length in H0. cbn in H0. lia. } { done. }
    rewrite append_nil in Hread. rewrite Hread. cbn [read_exponent]. eexists _, _. split; [done|].
    rewrite take_drop, drop_length in Hm. rewrite drop_length in Hk.
    eapply (Hfin m _ (Z.of_nat (length ds - Z.to_nat (X + 1)) - k)); [lia|exact Hm|lia].
Qed.
