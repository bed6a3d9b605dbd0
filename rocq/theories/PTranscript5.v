(** The documented runs, and the output of the benchmark. *)
From Coq Require Import ZArith Reals Ascii String Psatz.
From Flocq Require Import Core IEEE754.Binary IEEE754.Bits.
From Verif Require Import Base Conc Num MCeil PCeil MDouble PDouble SpecRound SpecBench MPrint SpecPrint PPrint PPrint2 MReport PReport PReport2 MBench PBench PBench64
  MTranscript PTranscript PTranscript2 PTranscript3 PTranscript4 PTiled PPseudo Spec SpecTiled SpecSched MApp SpecApp SpecReport SpecTranscript.

(** * evaluate.py *)
Lemma plotted o k v verdict l : (o_algorithm o, v) ∈ accepted -> o_help o = false -> ~ reports_inner v -> names_ok k ->
  (0 < Z.of_nat (o_n o) < 2 ^ 53)%Z -> (0 < Z.of_nat (o_repetitions o) < 2 ^ 53)%Z -> measurable (reported_time v k) ->
  l ≡ₚ app_chunks o k verdict ->
  exists s x, performance (put l) = Some s /\ denotes s x /\
    let e := (INR (o_repetitions o) * rate (2 * INR (o_n o) * INR (o_n o) * INR (o_n o)) (val64 (reported_time v k)))%R in
    (Rabs (x - e) <= 51 / 10000000 * e)%R.
Proof.
  intros Hv Hh Hi Hn HN Hr Hm Hl. eexists. rewrite (find_performance o k verdict Hn v l Hv Hi Hl).
  destruct (figures_accurate o v (reported_time v k) (reported_time v k) Hv Hh HN Hr Hm Hm) as (average & pf & ref & Ep & _ & Hw & _).
  unfold printed_figures in Ep. destruct (o_help o || _); [discriminate|]. injection Ep as _ <- _. cbv zeta in Hw.
  set (e := (INR (o_repetitions o) * _)%R) in *.
  assert (0 <= e)%R as He.
  { unfold e, rate. apply Rmult_le_pos; [apply pos_INR|]. destruct Hm as [_ [Hm _]].
    assert (0 < val64 (reported_time v k))%R as Hd by (eapply Rlt_le_trans; [apply bpow_gt_0|exact Hm]).
    unfold Rdiv. apply Rmult_le_pos; [|left; by apply Rinv_0_lt_compat]. pose proof (pos_INR (o_n o)). 
    repeat apply Rmult_le_pos; lra. }
  destruct (read_accurate 6 _ e 6 ltac:(lia) ltac:(lia) He Hw) as (x & Hd & Hx).
  exists x. split; [reflexivity|]. split; [exact Hd|]. cbv zeta. eapply Rle_trans; [exact Hx|].
  apply Rmult_le_compat_r; [exact He|]. change (1 - Z.of_nat 6)%Z with (-5)%Z.
  assert (bpow ten (-5) * bpow ten 5 = 1)%R as H1 by (rewrite <-bpow_plus; reflexivity).
  rewrite (bpow_ten 5) in H1 by lia. change (10 ^ 5)%Z with 100000%Z in H1. lra.
Qed.
Lemma inner_sizes o : exists X Y K, padded_to (Z.of_nat (o_n o)) 420 X /\ padded_to (Z.of_nat (o_n o)) 256 Y /\ padded_to (Z.of_nat (o_n o)) 256 K /\
  forall k, inner_perf o k = performance64 (Z.of_nat (o_repetitions o)) X Y K (c_inner k).
Proof.
  assert (Hp : forall L, 0 < L -> padded_to (Z.of_nat (o_n o)) (Z.of_nat L) (Z.of_nat (o_n o + padding (o_n o) L))).
  { intros L HL. rewrite (round_up_padding (o_n o) L HL). unfold round_up, cdiv, padded_to. set (N := o_n o). set (q := (N + (L - 1)) / L).
    assert (N <= q * L < N + L) as Hq.
    { unfold q. pose proof (Nat.div_mod (N + (L - 1)) L ltac:(lia)). pose proof (Nat.mod_upper_bound (N + (L - 1)) L ltac:(lia)). nia. }
    split; [lia|]. rewrite Nat2Z.inj_mul. apply Z.divide_factor_r. }
  eexists _, _, _. split; [exact (Hp 420 ltac:(lia))|]. split; [exact (Hp 256 ltac:(lia))|]. split; [exact (Hp 256 ltac:(lia))|]. reflexivity.
Qed.

(** No run of an unknown algorithm is found. *)
Lemma no_colon p q stop s : has_char ":" s = false -> search (p ++ String ":" q) stop s = None.
Proof.
  intros Hs. apply search_not_found. intros a g [_ (b & E)]. apply has_false in Hs. apply Hs.
  exists (a ++ p)%string, (q ++ g ++ stop ++ b)%string. rewrite E, !append_assoc. reflexivity.
Qed.
Lemma has_put c l : Forall (fun x => has_char c x = false) l -> has_char c (put l) = false.
Proof. induction 1 as [|x l Hx _ IH]; [reflexivity|]. rewrite put_cons, has_app, Hx, IH. reflexivity. Qed.
Lemma unknown_silent o k verdict : o_algorithm o ∉ accepted.*1 -> ~ occurs ":" (o_algorithm o) ->
  total_time (put (app_chunks o k verdict)) = None /\ average_time (put (app_chunks o k verdict)) = None /\
  performance (put (app_chunks o k verdict)) = None.
Proof.
  intros Hu Ho. apply has_false in Ho.
  assert (E : app_chunks o k verdict = [put ["before HPX"; newline]; put ["in HPX main"; newline]; put ["after HPX"; newline];
    put [""""; o_algorithm o; """ not a valid algorithm"; newline]]%string).
  { unfold app_chunks, hpx_chunks, known_algorithm. unfold accepted in Hu. cbn [fmap list_fmap fst] in Hu. rewrite !not_elem_of_cons in Hu.
    destruct Hu as (E1&E2&E3&E4&E5&E6&E7&E8&E9&_). unfold existsb. repeat rewrite (proj2 (String.eqb_neq (o_algorithm o) _)) by done. reflexivity. }
  assert (H : has_char ":" (put (app_chunks o k verdict)) = false).
  { rewrite E. apply has_put. constructor; [reflexivity|]. constructor; [reflexivity|]. constructor; [reflexivity|]. constructor; [|constructor].
    apply has_put. constructor; [reflexivity|]. constructor; [exact Ho|]. constructor; [reflexivity|]. constructor; [reflexivity|constructor]. }
  split; [exact (no_colon "total time" " " "s" _ H)|]. split; [exact (no_colon "average time per run" " " "s" _ H)|].
  exact (no_colon "performance" " " "Gflops" _ H).
Qed.

(** * The documented runs are suitable *)
Lemma pseudodynamic_pow2 o e localities : o_n o = 2 ^ e -> 1 <= e -> (2 * e < 62) -> o_block_result o = 128 -> o_block_input o = 128 /\ 7 <= e \/ o_block_input o = 0 ->
  (1 <= o_min_work_size o)%Z -> 0 < localities -> 0 < o_repetitions o -> suitable o localities Pseudodynamic.
Proof.
  intros Hn He1 He Hbr Hbi Hm Hl Hr. unfold suitable. rewrite Hn, Nat2Z.inj_pow. change (Z.of_nat 2) with 2%Z. split_and!; try lia.
  - rewrite <-Z.pow_add_r by lia. apply Z.pow_lt_mono_r; lia.
  - by apply even_chain_pow2.
  - intros n (l&Hle&->&_)%size_of_pow2; [|done]. rewrite to_nat_pow2.
    destruct (rec_pow2 l (o_block_result o) (o_block_input o) (o_transposed o) (2 ^ e)) as (ms&d&?&?&?&?&_).
    + rewrite Hbr. lia.
    + destruct Hbi as [[-> H7]|Hbi]; [right|by left]. exists (2 ^ (e - 7)). change 128 with (2 ^ 7). rewrite <-Nat.pow_add_r. f_equal. lia.
    + by exists ms, d.
Qed.
Lemma evaluate_suitable rel o localities : o ∈ evaluate_runs rel -> 0 < localities ->
  suitable o localities Pseudodynamic /\ (0 < Z.of_nat (o_n o) < 2 ^ 53)%Z /\ (0 < Z.of_nat (o_repetitions o) < 2 ^ 53)%Z.
Proof.
  intros Ho Hl.
  assert (exists e r, o_n o = Z.to_nat (2 ^ Z.of_nat e) /\ 9 <= e <= 13 /\ o_repetitions o = r /\ 1 <= r <= 10 /\
    o_block_result o = 128 /\ (o_block_input o = 128 \/ o_block_input o = 0) /\ o_min_work_size o = 256%Z) as (e & r & Hn & He & Hr & Hr' & Hbr & Hbi & Hm).
  { unfold evaluate_runs in Ho. cbn [flat_map map Datatypes.app fst snd] in Ho.
    repeat (apply elem_of_cons in Ho as [->|Ho];
      [first [exists 9, 10; cbn; by split_and!; try lia; try tauto | exists 10, 10; by split_and!; try lia; try tauto | exists 11, 5; by split_and!; try lia; try tauto
             | exists 12, 2; by split_and!; try lia; try tauto | exists 13, 1; by split_and!; try lia; try tauto]|]).
    by apply elem_of_nil in Ho. }
  rewrite to_nat_pow2 in Hn. split; [|split].
  - apply (pseudodynamic_pow2 o e); lia || done.
  - rewrite Hn, Nat2Z.inj_pow. change (Z.of_nat 2) with 2%Z. split; [apply Z.pow_pos_nonneg; lia|apply Z.pow_lt_mono_r; lia].
  - lia.
Qed.
(** README.md *)
Lemma size_8192 : Z.to_nat 8192 = 2 ^ 13.
Proof. exact (to_nat_pow2 13). Qed.
Lemma readme_suitable rel v localities : v ∈ [("single", Single); ("kernel_tiled", KernelTiled); ("pseudodynamic", Pseudodynamic); ("kernel_test", KernelTest)]%string ->
  0 < localities -> suitable (readme_options rel v.1) localities v.2 /\ (v.1, v.2) ∈ accepted /\ flag_ok (readme_options rel v.1) v.2.
Proof.
  intros Hv Hl. repeat (apply elem_of_cons in Hv as [->|Hv]).
  - split; [|split; [apply elem_of_list_In; cbn; tauto|exact I]]. cbn [suitable fst snd o_n readme_options o_repetitions o_transposed o_block_input o_block_result].
    split; [lia|]. rewrite size_8192. destruct (rec_pow2 13 128 128 true (2 ^ 13)) as (ms&d&?&?&?&?&_).
    + lia.
    + right. exists (2 ^ 6). change 128 with (2 ^ 7). rewrite <-Nat.pow_add_r. reflexivity.
    + by exists ms, d.
  - split; [cbn; lia|split; [apply elem_of_list_In; cbn; tauto|exact I]].
  - split; [|split; [apply elem_of_list_In; cbn; tauto|exact I]].
    apply (pseudodynamic_pow2 _ 13); try exact size_8192; cbn; lia || done || auto.
  - split; [|split; [apply elem_of_list_In; cbn; tauto|exact I]]. cbn [suitable fst snd o_n readme_options o_repetitions].
    rewrite size_8192. split; [lia|]. split; [exists (2 ^ 11); change 4 with (2 ^ 2); rewrite <-Nat.pow_add_r; reflexivity|].
    assert (E : 2 ^ 13 = 2 ^ 4 * 512) by (change 512 with (2 ^ 9); rewrite <-Nat.pow_add_r; reflexivity).
    assert (round_up (2 ^ 13) 512 = 2 ^ 13) as ->; [|lia].
    unfold round_up, cdiv. rewrite E, (Nat.add_comm (2 ^ 4 * 512)), Nat.div_add by lia. reflexivity.
  - by apply elem_of_nil in Hv.
Qed.
