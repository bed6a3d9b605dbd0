(** Any order of summation: other block sizes, and that the order matters. *)
From Coq Require Import ZArith Reals Psatz String.
From Flocq Require Import Core IEEE754.Binary IEEE754.Bits.
From Verif Require Import Conc ConcFacts Base Num Tools Spec SpecTiled SpecContract SpecExp SpecExp2 SpecBench MExp MExp2 MBench MCeil PCeil MDouble PDouble MContract MFast MBenchFast.
From Verif Require Import Properties13 Properties14 PUtil PPseudo PTiled5 PAlign PBench PBench64 PContract2 PRound PRound2 PContract PContract3 PFast PFast2 PFast3 PFast4 MApp SpecApp SpecRound SpecFast.
Local Open Scope nat_scope.

Lemma identity_transposed n (B Bt : list binary64) : is_identity n B -> is_identity n Bt -> is_transpose n n B Bt.
Proof.
  intros [L1 H1] [L2 H2]. split; [done|]. intros i j Hi Hj. rewrite H1, H2 by done. f_equal.
  destruct (decide (i = j)) as [e1|e1], (decide (j = i)) as [e2|e2]; congruence.
Qed.
Section Blocks.
  Context (A B : list binary64) (n : nat) (HA : length A = n * n) (HB : length B = n * n).
  Notation nearly tr k := (always k (fun D => forall R, Forall2 machine D R -> near_product tr n A B R)).
  Lemma near_by tr f (k : prog term (list term)) : entries_add n A B tr f -> always k (is_matrix n f) -> nearly tr k.
  Proof. intros Hf Hk. eapply must_mono; [|exact Hk]. intros D m HD. exact (near_product_entries n A B tr f D Hf HD). Qed.
  Lemma blocks_near (C : list term) junk : length C = n * n ->
    (forall b kc, 0 < b -> 0 < kc -> (b | n) -> (kc | n) -> (4 | kc) ->
      nearly true (multGPU_with b kc junk (TNum <$> A) (TNum <$> B) C n)) /\
    (forall bx by_ kc, 0 < bx -> 0 < by_ -> 0 < kc -> (bx | n) -> (by_ | n) -> (kc | n) -> (4 | bx) -> (4 | by_) -> (4 | kc) ->
      nearly false (multExchanged_with bx by_ kc junk (TNum <$> A) (TNum <$> B) C n)) /\
    (forall bx by_ kc offA offB offC,
      0 < bx -> 0 < by_ -> 0 < kc -> (bx | n) -> (by_ | n) -> (kc | n) -> (4 | bx) -> (16 | by_) -> (4 | kc) ->
      offA mod 4 = 0 -> offB mod 4 = 0 -> offC mod 4 = 0 ->
      nearly false (multIntrinLoop_with bx by_ kc no_fma junk offA offB offC (TNum <$> A) (TNum <$> B) C n)) /\
    (forall bx by_ kc offR offBB, 0 < bx -> 0 < by_ -> 0 < kc -> (bx | n) -> (by_ | n) -> (kc | n) -> (8 | bx) -> (8 | by_) ->
      offR mod 4 = 0 -> offBB mod 4 = 0 ->
      nearly false (multRegister_with bx by_ kc no_fma (fun iii jjj => iii * 2 + jjj) junk offR offBB (TNum <$> A) (TNum <$> B) C n)) /\
    (forall b kc offAA offBB, 0 < b -> 0 < kc -> (b | n) -> (kc | n) -> (4 | b) -> (4 | kc) -> offAA mod 4 = 0 -> offBB mod 4 = 0 ->
      nearly true (multGPUASM_with b kc (Some no_fma) junk offAA offBB (TNum <$> A) (TNum <$> B) C n)).
  Proof.
    intros HC. pose proof (tlen n A HA) as LA. pose proof (tlen n B HB) as LB. repeat split; intros.
    - eapply near_by; [|by apply C61_gpu]. by apply add_lanes.
    - eapply near_by; [|by apply C62_exchanged]. by apply add_prod.
    - eapply near_by; [|by apply C63_intrin]. by apply add_fma.
    - eapply near_by; [|by apply C64_register_fma]. by apply add_fma.
    - eapply near_by; [|by apply C66_gpuasm]. by apply add_fma_lanes.
  Qed.
  Lemma intrinsics_near (C : list binary64) junk : length C = n * n ->
    (forall bx by_ kc offA offB offC,
      0 < bx -> 0 < by_ -> 0 < kc -> (bx | n) -> (by_ | n) -> (kc | n) -> (4 | bx) -> (16 | by_) -> (4 | kc) ->
      offA mod 4 = 0 -> offB mod 4 = 0 -> offC mod 4 = 0 ->
      always (multIntrinLoop_with bx by_ kc fma64 junk offA offB offC A B C n) (near_product false n A B)) /\
    (forall bx by_ kc offR offBB, 0 < bx -> 0 < by_ -> 0 < kc -> (bx | n) -> (by_ | n) -> (kc | n) -> (8 | bx) -> (8 | by_) ->
      offR mod 4 = 0 -> offBB mod 4 = 0 ->
      always (multRegister_with bx by_ kc fma64 (fun iii jjj => iii * 2 + jjj) junk offR offBB A B C n) (near_product false n A B)) /\
    (forall b kc offAA offBB, 0 < b -> 0 < kc -> (b | n) -> (kc | n) -> (4 | b) -> (4 | kc) -> offAA mod 4 = 0 -> offBB mod 4 = 0 ->
      always (multGPUASM_with b kc (Some fma64) junk offAA offBB A B C n) (near_product true n A B)).
  Proof.
    intros HC. assert (LA : n * n <= length A) by lia. assert (LB : n * n <= length B) by lia. repeat split; intros.
    - eapply must_mono; [|by apply C63_intrin]. intros D m. apply fma_near.
    - eapply must_mono; [|by apply C64_register_fma]. intros D m. apply fma_near.
    - eapply must_mono; [|by apply C66_gpuasm]. intros D m. by apply fma_lanes_near.
  Qed.
End Blocks.

(** ** The order matters *)
Definition big : binary64 := double_of (2 ^ 60).
Definition minus_big : binary64 := double_of (- 2 ^ 60).
Definition entry_a (i k : nat) : binary64 := if decide (k = 0) then big else if decide (k = 1) then minus_big else if decide (k = 2) then double_of 1 else nzero.
Definition tail_t (l : list nat) (a : term) : term := foldl (fun acc k => TAdd acc (TMul (TNum nzero) (TNum none1))) a l.
Lemma tail_separate l a : nadd a (nmul nzero none1) = a -> forall t, separate t = a -> separate (tail_t l t) = a.
Proof. intros Ha. induction l as [|k l IH]; intros t Ht; [done|]. cbn [tail_t foldl]. apply IH. cbn [separate]. by rewrite Ht. Qed.
Lemma tail_rearranged l a a' : rearranged a a' -> rearranged (tail_t l a) (tail_t l a').
Proof. revert a a'. induction l as [|k l IH]; intros a a' H; [done|]. apply IH. apply re_add; [done|constructor]. Qed.
Lemma order_matters n (C : list term) : 3 <= n -> is_zero n C ->
  exists A B : list binary64, length A = n * n /\ length B = n * n /\
  always (multNaive (TNum <$> A) (TNum <$> B) C n) (fun D => exists e e' : term,
    D !! 0 = Some e /\ rearranged e e' /\ val64 (separate e) = 1%R /\ val64 (separate e') = 0%R).
Proof.
  intros Hn HC. destruct (is_matrix_exists n entry_a) as [A HA]. destruct (is_matrix_exists n (fun _ _ => none1 : binary64)) as [B HB].
  exists A, B. split; [apply HA|]. split; [apply HB|].
  eapply must_mono; [|exact (proj1 (C59_naive_zeroed n _ _ C (tlen n A (proj1 HA)) (tlen n B (proj1 HB)) HC))].
  intros D m [_ HD]. specialize (HD 0 0 ltac:(lia) ltac:(lia)).
  set (b0 := TMul (TNum big) (TNum none1)). set (b1 := TMul (TNum minus_big) (TNum none1)). set (b2 := TMul (TNum (double_of 1)) (TNum none1)).
  assert (E : prod_entry n (TNum <$> A) (TNum <$> B) 0 0 = tail_t (seq 3 (n - 3)) (TAdd (TAdd (TAdd (TNum nzero) b0) b1) b2)).
  { unfold prod_entry, dot. replace (seq 0 n) with (0 :: 1 :: 2 :: seq 3 (n - 3)) by (replace n with (3 + (n - 3)) at 2 by lia; done).
    assert (Ek : forall k, k < n -> nmul (ent n (TNum <$> A) 0 k) (ent n (TNum <$> B) k 0) = TMul (TNum (entry_a 0 k)) (TNum none1)).
    { intros k Hk. rewrite !ent_terms, (is_matrix_ent n _ A 0 k HA), (is_matrix_ent n _ B k 0 HB) by lia. done. }
    cbn [foldl]. rewrite !Ek by lia.
    assert (Hl : forall l a, (forall k, k ∈ l -> 3 <= k < n) -> foldl (fun acc k => nadd acc (nmul (ent n (TNum <$> A) 0 k) (ent n (TNum <$> B) k 0))) a l = tail_t l a).
    { induction l as [|k l IH]; intros a Hl; [done|]. cbn [foldl tail_t]. rewrite Ek by (apply Hl; by left).
      assert (entry_a 0 k = nzero) as ->. { specialize (Hl k ltac:(by left)). unfold entry_a. rewrite !decide_False by lia. done. }
      apply IH. intros k' Hk'. apply Hl. by right. }
    rewrite Hl; [done|]. intros k [? ?]%elem_of_seq. lia. }
  rewrite E in HD. exists (tail_t (seq 3 (n - 3)) (TAdd (TAdd (TAdd (TNum nzero) b0) b1) b2)), (tail_t (seq 3 (n - 3)) (TAdd (TAdd (TNum nzero) b0) (TAdd b1 b2))).
  split; [exact HD|]. split; [apply tail_rearranged, re_add_assoc|]. split.
  - rewrite (tail_separate _ (double_of 1)); [apply (double_of_exact 1); lia|apply B2FF_inj; vm_compute; reflexivity|apply B2FF_inj; vm_compute; reflexivity].
  - rewrite (tail_separate _ nzero); [done|apply B2FF_inj; vm_compute; reflexivity|apply B2FF_inj; vm_compute; reflexivity].
Qed.
