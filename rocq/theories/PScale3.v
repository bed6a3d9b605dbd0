(** Proofs about schedules drawn to another scale: rounding of the bounds, the
    comparison in doubles, and the small schedules. *)
From stdpp Require Import list.
From Coq Require Import ZArith Lia Reals Lra.
From Flocq Require Import Core IEEE754.Binary IEEE754.Bits.
From Verif Require Import MSchedule SpecSched PSchedule SpecScale PScale PScale2 MCeil MDouble MReport MBalance PBalance2 PReport.
Local Open Scope Z_scope.

Lemma min_size_scaled c mws n : 0 < c -> (c * n <=? mws) = (n <=? mws / c).
Proof.
  intros Hc. destruct (Z.leb_spec (c * n) mws), (Z.leb_spec n (mws / c)); try done.
  - assert (n <= mws / c) by (apply Z.div_le_lower_bound; lia). lia.
  - pose proof (Z.mul_div_le mws c Hc). nia.
Qed.
Lemma difference_scaled c maxd d : 0 < c -> (c * d <? maxd) = (d <? (maxd + c - 1) / c).
Proof.
  intros Hc. destruct (Z.ltb_spec (c * d) maxd), (Z.ltb_spec d ((maxd + c - 1) / c)); try done.
  - assert (d + 1 <= (maxd + c - 1) / c) by (apply Z.div_le_lower_bound; lia). lia.
  - pose proof (Z.mul_div_le (maxd + c - 1) c Hc). nia.
Qed.
Lemma schedule_scale c N mws maxd rel rel' fuel L : 0 < c -> 0 <= N -> (c * N) * (c * N) < 2 ^ 62 -> 0 <= mws ->
  even_chain N (mws / c) -> (forall d m, 0 <= d <= N * N -> 0 < m <= N * N -> rel' (c * c * d) (c * c * m) = rel d m) ->
  create_schedule_state (c * N) mws maxd rel' fuel L =
  match create_schedule_state N (mws / c) ((maxd + c * c - 1) / (c * c)) rel fuel L with Ok s => Ok (scale c s) | Fail e => Fail e end.
Proof.
  intros Hc HN HN2 Hm Hev Hrel. apply state_scale; try done.
  - apply Z.div_pos; lia.
  - intros n. by apply min_size_scaled.
  - intros d _. apply difference_scaled. nia.
Qed.
Lemma rel64_scale b c d m : finite64 b = true -> 0 < c -> 0 <= c * d < 2 ^ 53 -> 0 < c * m < 2 ^ 53 -> rel64 b (c * d) (c * m) = rel64 b d m.
Proof.
  intros Hb Hc Hd Hm. assert (0 <= d < 2 ^ 53) by nia. assert (0 < m < 2 ^ 53) by nia.
  rewrite !rel64_round by done. replace (IZR (c * d) / IZR (c * m))%R with (IZR d / IZR m)%R; [done|]. rewrite !mult_IZR. field.
  split; apply IZR_neq; lia.
Qed.
Lemma schedule_scale_doubles c N mws maxd b fuel L : finite64 b = true -> 0 < c -> 0 <= N -> (c * N) * (c * N) < 2 ^ 53 -> 0 <= mws ->
  even_chain N (mws / c) ->
  create_schedule_state (c * N) mws maxd (rel64 b) fuel L =
  match create_schedule_state N (mws / c) ((maxd + c * c - 1) / (c * c)) (rel64 b) fuel L with Ok s => Ok (scale c s) | Fail e => Fail e end.
Proof.
  intros Hb Hc HN HN2 Hm Hev. apply schedule_scale; try done; [lia|]. intros d m Hd Hmm. apply rel64_scale; try done; nia.
Qed.

(** The schedules for up to 128 localities, computed once *)
Lemma small_schedules : Forall (fun e => let L := (2 ^ e)%nat in
  match create_schedule_state (2 * Z.of_nat L) 1 0 (fun _ _ => false) 600 L with Ok s => small_ok L s | _ => false end = true) (seq 0 8).
Proof. repeat (apply Forall_cons; split; [vm_compute; reflexivity|]). by apply Forall_nil. Qed.
Lemma schedule_perfect e N mws maxd rel fuel s : (e <= 7)%nat -> (2 ^ Z.of_nat (S e) | N) -> N * N < 2 ^ 62 -> 0 <= mws -> 2 ^ Z.of_nat e * mws < N ->
  create_schedule_state N mws maxd rel fuel (2 ^ e) = Ok s ->
  balanced maxd rel (total_work s) \/ forall t, t ∈ total_work s -> 2 ^ Z.of_nat e * t = N * N.
Proof.
  intros He [c ->] HN2 Hm HmN E. assert (HL : Z.of_nat (2 ^ e) = 2 ^ Z.of_nat e) by (by rewrite Nat2Z.inj_pow).
  assert (HS : 2 ^ Z.of_nat (S e) = 2 * 2 ^ Z.of_nat e) by (rewrite Nat2Z.inj_succ, Z.pow_succ_r by lia; done).
  rewrite HS, <- HL in *. assert (0 < Z.of_nat (2 ^ e)) by (rewrite HL; apply Z.pow_pos_nonneg; lia).
  pose proof small_schedules as Hs. rewrite Forall_lookup in Hs. specialize (Hs e e). cbn zeta in Hs.
  specialize (Hs ltac:(rewrite lookup_seq_lt; [done|lia])).
  destruct (create_schedule_state (2 * Z.of_nat (2 ^ e)) 1 0 (fun _ _ => false) 600 (2 ^ e)) as [s0|] eqn:E0; [|done].
  replace (c * (2 * Z.of_nat (2 ^ e))) with (2 * Z.of_nat (2 ^ e) * c) in * by ring.
  destruct (pow2_scaled e c mws maxd rel fuel s 600 s0 E0 Hs) as [Hb|[_ H1]]; [nia|done|nia|done|by left|by right].
Qed.

(** 256 localities *)
Lemma schedule_256 : match create_schedule_state 512 1 0 (fun _ _ => false) 1300 256 with
  Ok s => existsb (Z.eqb 1028) (total_work s) && existsb (Z.eqb 1018) (total_work s) | _ => false end = true.
Proof. vm_compute. reflexivity. Qed.
Lemma schedule_256_uneven c : 0 < c -> (512 * c) * (512 * c) < 2 ^ 62 ->
  exists s, create_schedule_state (512 * c) (2 * c - 1) 0 (fun _ _ => false) 1300 256 = Ok s /\
    c * c * 1028 ∈ total_work s /\ c * c * 1018 ∈ total_work s.
Proof.
  intros Hc HN2. pose proof schedule_256 as H. destruct (create_schedule_state 512 1 0 (fun _ _ => false) 1300 256) as [s|] eqn:E; [|done].
  apply andb_true_iff in H as [(t&H1&->%Z.eqb_eq)%existsb_exists (u&H2&->%Z.eqb_eq)%existsb_exists].
  exists (scale c s). split.
  - rewrite (Z.mul_comm 512). rewrite (schedule_scale c 512 (2 * c - 1) 0 (fun _ _ => false)); [|done|done|by rewrite (Z.mul_comm c)|lia| |done].
    + replace ((2 * c - 1) / c) with 1 by (apply (Z.div_unique _ _ _ (c - 1)); lia).
      replace ((0 + c * c - 1) / (c * c)) with 0 by (symmetry; apply Z.div_small; nia). by rewrite E.
    + replace ((2 * c - 1) / c) with 1 by (apply (Z.div_unique _ _ _ (c - 1)); lia). change 512 with (2 ^ Z.of_nat 9). by apply PPseudo.even_chain_pow2.
  - unfold scale. cbn [total_work]. split; apply elem_of_list_In, in_map; done.
Qed.
