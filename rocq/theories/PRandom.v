(** The engine: full period, and how far two pairs of outputs are apart. *)
From Coq Require Import ZArith Lia Znumtheory Zpow_facts.
From Verif Require Import Base SpecRandom.
Local Open Scope Z_scope.

Notation mm := 2147483647.
Notation rr := 2147483646.
(** The multiplicative inverse of the multiplier. *)
Definition inverse (a : Z) : Z := if a =? 16807 then 1407677000 else 1899818559.

(** * Powers modulo 2^31 - 1 *)
Definition pm (a n : Z) : Z := a ^ n mod mm.
Lemma pm_add a n p : 0 <= n -> 0 <= p -> pm a (n + p) = (pm a n * pm a p) mod mm.
Proof. intros Hn Hp. unfold pm. rewrite Z.pow_add_r by done. by rewrite <- Zmult_mod. Qed.
Lemma pm_mul1 a n q : 0 <= n -> 0 <= q -> pm a n = 1 -> pm a (n * q) = 1.
Proof.
  intros Hn Hq H. unfold pm. rewrite Z.pow_mul_r by done. rewrite Zpower_mod by lia. fold (pm a n). rewrite H. rewrite Z.pow_1_l by done. done.
Qed.
Lemma pm_add1 a n p : 0 <= n -> 0 <= p -> pm a p = 1 -> pm a (n + p) = pm a n.
Proof. intros Hn Hp H. rewrite pm_add by done. rewrite H, Z.mul_1_r. unfold pm. by rewrite Zmod_mod. Qed.

(** The prime divisors of rr *)
Lemma divisor (k : Z) : 1 < k -> (k | rr) ->
  (2 | k) \/ (3 | k) \/ (7 | k) \/ (11 | k) \/ (31 | k) \/ (151 | k) \/ (331 | k).
Proof.
  intros Hk Hd.
  assert (Hrel : forall q, prime q -> ~ (q | k) -> rel_prime k q).
  { intros q Hq Hn. apply rel_prime_sym. by apply prime_rel_prime. }
  assert (P2 : prime 2) by apply prime_2. assert (P3 : prime 3) by apply prime_3.
  assert (Hp : forall q, 1 < q -> (forall d, 1 < d < q -> d * d <= q -> q mod d <> 0) -> prime q).
  { intros q Hq Ht. destruct (prime_dec q) as [?|Hnp]; [done|]. exfalso.
    destruct (not_prime_divide q Hq Hnp) as (d&Hd1&[e He]). 
    assert (He1 : 1 < e < q) by nia.
    destruct (Z_le_gt_dec (d * d) q) as [H|H].
    - apply (Ht d Hd1 H). rewrite He. apply Z_mod_mult.
    - apply (Ht e He1). { nia. } rewrite He, Z.mul_comm. apply Z_mod_mult. }
  assert (Hsmall : forall q, 1 < q < 361 -> forallb (fun d => negb (q mod d =? 0) || (q <? d * d)) [2;3;4;5;6;7;8;9;10;11;12;13;14;15;16;17;18] = true -> prime q).
  { intros q Hq Hf. apply Hp; [lia|]. intros d Hd1 Hd2 E. rewrite forallb_forall in Hf.
    assert (d < 19) by nia. specialize (Hf d).
    assert (Hin : List.In d [2;3;4;5;6;7;8;9;10;11;12;13;14;15;16;17;18]) by (cbn; lia).
    specialize (Hf Hin). rewrite E in Hf. cbn in Hf. apply Z.ltb_lt in Hf. lia. }
  assert (P7 : prime 7) by (apply Hsmall; [lia|reflexivity]). assert (P11 : prime 11) by (apply Hsmall; [lia|reflexivity]).
  assert (P31 : prime 31) by (apply Hsmall; [lia|reflexivity]). assert (P151 : prime 151) by (apply Hsmall; [lia|reflexivity]).
  assert (P331 : prime 331) by (apply Hsmall; [lia|reflexivity]).
  destruct (Zdivide_dec 2 k) as [?|N2]; [tauto|]. destruct (Zdivide_dec 3 k) as [?|N3]; [tauto|].
  destruct (Zdivide_dec 7 k) as [?|N7]; [tauto|]. destruct (Zdivide_dec 11 k) as [?|N11]; [tauto|].
  destruct (Zdivide_dec 31 k) as [?|N31]; [tauto|]. destruct (Zdivide_dec 151 k) as [?|N151]; [tauto|].
  destruct (Zdivide_dec 331 k) as [?|N331]; [tauto|]. exfalso.
  change rr with (2 * (3 * (3 * (7 * (11 * (31 * (151 * 331))))))) in Hd.
  do 7 (apply Gauss in Hd; [|by apply Hrel]). destruct Hd as [e He].
  apply N331. destruct (prime_divisors 331 P331 k) as [H|[H|[H|H]]]; [exists e; lia| | | |]; try lia. subst k. by exists 1.
Qed.

Section Order.
  Context (a : Z) (Ha : is_multiplier a).
  Lemma pm_rr : pm a rr = 1.
  Proof.
    unfold pm. rewrite <- Zpow_mod_correct by lia. destruct Ha as [->| ->]; vm_compute; reflexivity.
  Qed.
  Lemma pm_quot q : q = 2 \/ q = 3 \/ q = 7 \/ q = 11 \/ q = 31 \/ q = 151 \/ q = 331 -> pm a (rr / q) <> 1.
  Proof.
    intros Hq. unfold pm. rewrite <- Zpow_mod_correct by (try apply Z.div_pos; lia).
    destruct Ha as [->| ->]; destruct Hq as [->|[->|[->|[->|[->|[->| ->]]]]]]; vm_compute; discriminate.
  Qed.
  Lemma order d : 0 < d < rr -> pm a d <> 1.
  Proof.
    intros Hd H1. set (g := Z.gcd d rr).
    assert (Hg : 0 < g) by (unfold g; pose proof (Z.gcd_nonneg d rr); pose proof (Z.gcd_eq_0_l d rr); lia).
    assert (Hgd : g <= d) by (apply Z.divide_pos_le; [lia|apply Z.gcd_divide_l]).
    assert (Hpg : pm a g = 1).
    { destruct (Z.gcd_bezout d rr g eq_refl) as (u&w&E).
      pose proof (Z.div_mod u rr ltac:(lia)) as Eu. pose proof (Z.mod_pos_bound u rr ltac:(lia)) as Bu.
      set (u' := u mod rr) in *. set (z := - (w + u / rr * d)).
      assert (E' : d * u' = g + rr * z) by (unfold z; nia).
      assert (Hz : 0 <= z) by nia.
      rewrite <- (pm_add1 a g (rr * z)); [|lia|lia|apply pm_mul1; [lia|done|apply pm_rr]].
      rewrite <- E'. apply pm_mul1; [lia|lia|done]. }
    destruct (Z.gcd_divide_r d rr) as [k Hk]. fold g in Hk.
    assert (Hk1 : 1 < k) by nia.
    assert (Hfin : forall q, q = 2 \/ q = 3 \/ q = 7 \/ q = 11 \/ q = 31 \/ q = 151 \/ q = 331 -> (q | k) -> False).
    { intros q Hq [k' Hk']. apply (pm_quot q Hq). 
      replace (rr / q) with (g * k'); [apply pm_mul1; [lia|nia|done]|].
      rewrite Hk, Hk'. replace (k' * q * g) with (g * k' * q) by lia. rewrite Z.div_mul; lia. }
    destruct (divisor k Hk1) as [H|[H|[H|[H|[H|[H|H]]]]]]; [exists g; lia|..]; (eapply Hfin; [|exact H]; lia).
  Qed.
  Lemma pm_one n : 0 <= n -> pm a n = 1 -> n mod rr = 0.
  Proof.
    intros Hn H. pose proof (Z.div_mod n rr ltac:(lia)) as E. pose proof (Z.mod_pos_bound n rr ltac:(lia)) as B.
    destruct (Z.eq_dec (n mod rr) 0) as [?|Hne]; [done|]. exfalso. apply (order (n mod rr)); [lia|].
    rewrite <- H. rewrite E at 2. rewrite Z.add_comm. symmetry. apply pm_add1; [lia|apply Z.mul_nonneg_nonneg; [lia|apply Z.div_pos; lia]|].
    apply pm_mul1; [lia|apply Z.div_pos; lia|apply pm_rr].
  Qed.
  Lemma pm_inj i j : 0 <= i <= j -> pm a i = pm a j -> (j - i) mod rr = 0.
  Proof.
    intros Hij E. apply pm_one; [lia|].
    assert (E1 : pm a (rr * i + (j - i)) = 1).
    { replace (rr * i + (j - i)) with ((rr - 1) * i + j) by lia. rewrite pm_add by lia. rewrite <- E, <- pm_add by lia.
      replace ((rr - 1) * i + i) with (rr * i) by lia. apply pm_mul1; [lia|lia|apply pm_rr]. }
    rewrite Z.add_comm, pm_add1 in E1; [done|lia|lia|]. apply pm_mul1; [lia|lia|apply pm_rr].
  Qed.
  Lemma pm_iff i j : 0 <= i -> 0 <= j -> (pm a i = pm a j <-> i mod rr = j mod rr).
  Proof.
    intros Hi Hj. split.
    - intros E. destruct (Z.le_ge_cases i j) as [H|H].
      + pose proof (pm_inj i j ltac:(lia) E) as D. apply Z.mod_divide in D; [|lia]. destruct D as [q Hq].
        replace j with (i + q * rr) by lia. by rewrite Z_mod_plus_full.
      + pose proof (pm_inj j i ltac:(lia) (eq_sym E)) as D. apply Z.mod_divide in D; [|lia]. destruct D as [q Hq].
        replace i with (j + q * rr) by lia. by rewrite Z_mod_plus_full.
    - intros E. assert (R : forall n, 0 <= n -> pm a n = pm a (n mod rr)).
      { intros n Hn. rewrite (Z.div_mod n rr) at 1 by lia. pose proof (Z.mod_pos_bound n rr ltac:(lia)). pose proof (Z.div_pos n rr Hn ltac:(lia)).
        rewrite Z.add_comm, pm_add1; [done|lia|lia|]. apply pm_mul1; [lia|lia|apply pm_rr]. }
      rewrite (R i), (R j) by done. by rewrite E.
  Qed.
  Lemma pm_range n : 0 <= n -> 1 <= pm a n <= rr.
  Proof.
    intros Hn. pose proof (Z.mod_pos_bound (a ^ n) mm ltac:(lia)) as B. fold (pm a n) in B.
    assert (pm a n <> 0); [|lia]. intros E0.
    assert (E : pm a (rr * n) = 1) by (apply pm_mul1; [lia|done|apply pm_rr]).
    destruct (Z.eq_dec n 0) as [->|]; [by cbn in E0|].
    replace (rr * n) with (n + (rr - 1) * n) in E by lia. rewrite pm_add in E by lia. rewrite E0 in E. cbn in E. discriminate.
  Qed.

  (** * Pairs of outputs *)
  Lemma inv_range : 1407677000 <= inverse a < mm.
  Proof. unfold inverse. destruct Ha as [->| ->]; cbn; lia. Qed.
  Lemma inv_ok : (inverse a * a) mod mm = 1.
  Proof. unfold inverse. destruct Ha as [->| ->]; vm_compute; reflexivity. Qed.
  Lemma pm_back n : 0 <= n -> pm a n = (inverse a * pm a (n + 1)) mod mm.
  Proof.
    intros Hn. rewrite pm_add by lia. change (pm a 1) with (a ^ 1 mod mm). rewrite Z.pow_1_r.
    rewrite Zmult_mod_idemp_r, Z.mul_assoc, Zmult_mod_idemp_r.
    replace (inverse a * pm a n * a) with (inverse a * a * pm a n) by ring.
    rewrite <- Zmult_mod_idemp_l, inv_ok, Z.mul_1_l. unfold pm. by rewrite Zmod_mod.
  Qed.
  (** The integer whose quotient by rr * rr is drawn. *)
  Definition pair (k : nat) : Z := (power_residue a (2 * k + 1) - 1) + (power_residue a (2 * k + 2) - 1) * rr.
  Lemma residue n : power_residue a n = pm a (Z.of_nat n).
  Proof. reflexivity. Qed.
  Lemma residue_range n : 1 <= power_residue a n <= rr.
  Proof. rewrite residue. apply pm_range. lia. Qed.
  Lemma residue_back n : power_residue a n = (inverse a * power_residue a (S n)) mod mm.
  Proof. rewrite !residue, (pm_back (Z.of_nat n)) by lia. by rewrite Nat2Z.inj_succ. Qed.
  Lemma residue_iff i j : power_residue a i = power_residue a j <-> Z.of_nat i mod rr = Z.of_nat j mod rr.
  Proof. rewrite !residue. apply pm_iff; lia. Qed.

  Lemma mod_step x d : 1 <= x <= rr -> 0 < d < mm -> 1 <= (x + d) mod mm -> (x + d) mod mm = x + d \/ (x + d) mod mm = x + d - mm.
  Proof.
    intros Hx Hd _. destruct (Z_lt_ge_dec (x + d) mm) as [H|H]; [left; apply Z.mod_small; lia|right].
    replace (x + d) with (x + d - mm + 1 * mm) at 1 by lia. rewrite Z_mod_plus_full. apply Z.mod_small. lia.
  Qed.
  Lemma pair_low k : inverse a - 1 <= pair k.
  Proof.
    pose proof inv_range as Hi. pose proof (residue_range (2 * k + 1)) as H0. pose proof (residue_range (2 * k + 2)) as H1. unfold pair.
    destruct (Z.eq_dec (power_residue a (2 * k + 2)) 1) as [E|E]; [|nia].
    pose proof (residue_back (2 * k + 1)) as B. replace (S (2 * k + 1)) with (2 * k + 2)%nat in B by lia.
    rewrite E, Z.mul_1_r, Z.mod_small in B by lia. lia.
  Qed.
  Lemma pair_high k : pair k <= rr * rr - inverse a.
  Proof.
    pose proof inv_range as Hi. pose proof (residue_range (2 * k + 1)) as H0. pose proof (residue_range (2 * k + 2)) as H1. unfold pair.
    destruct (Z.eq_dec (power_residue a (2 * k + 2)) rr) as [E|E]; [|nia].
    pose proof (residue_back (2 * k + 1)) as B. replace (S (2 * k + 1)) with (2 * k + 2)%nat in B by lia.
    rewrite E in B. replace (inverse a * rr) with (mm - inverse a + (inverse a - 1) * mm) in B by lia.
    rewrite Z_mod_plus_full, Z.mod_small in B by lia. lia.
  Qed.
  Lemma pair_apart_lt i j : power_residue a (2 * i + 2) < power_residue a (2 * j + 2) -> inverse a - 1 <= pair j - pair i.
  Proof.
    intros Hlt. pose proof inv_range as Hi. pose proof (residue_range (2 * i + 1)) as H0. pose proof (residue_range (2 * j + 1)) as H1. unfold pair.
    destruct (Z.eq_dec (power_residue a (2 * j + 2)) (power_residue a (2 * i + 2) + 1)) as [E|E]; [|nia].
    pose proof (residue_back (2 * i + 1)) as Bi. pose proof (residue_back (2 * j + 1)) as Bj.
    replace (S (2 * i + 1)) with (2 * i + 2)%nat in Bi by lia. replace (S (2 * j + 1)) with (2 * j + 2)%nat in Bj by lia.
    rewrite E, Z.mul_add_distr_l, Z.mul_1_r, <- Zplus_mod_idemp_l, <- Bi in Bj.
    destruct (mod_step (power_residue a (2 * i + 1)) (inverse a) H0) as [Hm|Hm]; [lia|lia|nia|nia].
  Qed.
  Lemma phase_iff i j : same_phase i j <-> Z.of_nat (2 * i + 2) mod rr = Z.of_nat (2 * j + 2) mod rr.
  Proof.
    unfold same_phase. change period with 1073741823.
    replace (Z.of_nat (2 * i + 2)) with (2 * (Z.of_nat i + 1)) by lia. replace (Z.of_nat (2 * j + 2)) with (2 * (Z.of_nat j + 1)) by lia.
    change rr with (2 * 1073741823). rewrite !Zmult_mod_distr_l. split.
    - intros E. f_equal. rewrite <- (Zplus_mod_idemp_l (Z.of_nat i)), E. by rewrite Zplus_mod_idemp_l.
    - intros E. assert (E' : (Z.of_nat i + 1) mod 1073741823 = (Z.of_nat j + 1) mod 1073741823) by lia.
      replace (Z.of_nat i) with (Z.of_nat i + 1 + -1) by lia. replace (Z.of_nat j) with (Z.of_nat j + 1 + -1) by lia.
      rewrite <- (Zplus_mod_idemp_l (Z.of_nat i + 1)), E'. by rewrite Zplus_mod_idemp_l.
  Qed.
  Lemma pair_apart i j : ~ same_phase i j -> inverse a - 1 <= Z.abs (pair i - pair j).
  Proof.
    intros Hne. rewrite phase_iff, <- residue_iff in Hne.
    destruct (Z.lt_trichotomy (power_residue a (2 * i + 2)) (power_residue a (2 * j + 2))) as [H|[H|H]]; [|done|].
    - pose proof (pair_apart_lt i j H). lia.
    - pose proof (pair_apart_lt j i H). lia.
  Qed.
  Lemma phase_residues i j : same_phase i j ->
    power_residue a (2 * i + 1) = power_residue a (2 * j + 1) /\ power_residue a (2 * i + 2) = power_residue a (2 * j + 2).
  Proof.
    rewrite phase_iff, <- residue_iff. intros E. split; [|done].
    rewrite (residue_back (2 * i + 1)), (residue_back (2 * j + 1)).
    replace (S (2 * i + 1)) with (2 * i + 2)%nat by lia. replace (S (2 * j + 1)) with (2 * j + 2)%nat by lia. by rewrite E.
  Qed.
End Order.
