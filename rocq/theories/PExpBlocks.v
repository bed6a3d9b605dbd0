(** Proofs about the blocked experiment kernels multGPU and multExchanged. *)
From Verif Require Import SpecExp Tools Tools2 Tools3 MExp PExp.

Lemma find_blk n b I : 0 < b -> I < n -> exists i ii, i ∈ rng 0 n b /\ ii < b /\ I = i + ii.
Proof.
  intros Hb HI. exists (I / b * b), (I mod b). pose proof (Nat.div_mod I b). pose proof (Nat.mod_upper_bound I b).
  split_and!; [|lia|lia]. apply elem_of_rng; [done|]. exists (I / b). lia.
Qed.

(** ** Parts *)
Section Parts.
  Context {T : Type} `{NumOps T}.

  Lemma seq_by {X} b n (g : nat -> X) : 0 < b -> (b | n) ->
    (rng 0 n b ≫= fun k => (fun kk => g (k + kk)) <$> seq 0 b) = g <$> seq 0 n.
  Proof.
    intros Hb [q ->]. rewrite rng_0_exact by done. rewrite bind_fmap_l, <- seq_blocks, fmap_bind_r.
    apply bind_ext. intros x _. transitivity (g <$> (Nat.add (x * b) <$> seq 0 b)).
    - by rewrite <- list_fmap_compose.
    - rewrite fmap_add_seq, Nat.add_0_r. done.
  Qed.
  Lemma applyL_merge {X} x (g : X -> T -> T) l s :
    applyL (l ≫= fun y => [(x, g y)]) s = applyL [(x, fun v => foldl (fun a y => g y a) v l)] s.
  Proof.
    apply list_eq. intros p. rewrite !applyL_lookup. destruct (decide (x = p)) as [->|Hne].
    - rewrite contrib_same, contrib_single_eq. destruct (s !! p); [|done]. cbn. by rewrite fold_upd_fmap.
    - rewrite (contrib_single_ne p x) by done. rewrite contrib_none; [done|].
      intros u (y&Hu&_)%elem_of_list_bind. apply elem_of_list_singleton in Hu as ->. done.
  Qed.
  Lemma applyL_ext (us us' : list (nat * (T -> T))) s :
    (forall p v, p < length s -> fold_upd (contrib p us) v = fold_upd (contrib p us') v) -> applyL us s = applyL us' s.
  Proof.
    intros He. apply list_eq. intros p. rewrite !applyL_lookup. destruct (s !! p) eqn:E; [|done]. cbn.
    rewrite He; [done|]. by eapply lookup_lt_Some.
  Qed.
  Lemma rng_div b n : 0 < b -> (b | n) -> rng 0 n b = (fun q => q * b) <$> seq 0 (n / b).
  Proof. intros Hb [q ->]. rewrite Nat.div_mul by lia. by apply rng_0_exact. Qed.
  Lemma rng_0_1 n : rng 0 n 1 = seq 0 n.
  Proof. rewrite rng_1. f_equal. lia. Qed.

  (** A strip of a matrix. *)
  Definition is_strip (M : list T) (n row kBlock b kc : nat) (s : list T) : Prop :=
    length s = b * kc /\ forall ii k, ii < b -> k < kc -> s !! (ii * kc + k) = Some (ent n M (row + ii) (kBlock + k)).
  Lemma copy_rows_ok (M : list T) n row kBlock b kc s :
    n * n <= length M -> length s = b * kc ->
    (forall ii, ii < b -> row + ii < n) -> (forall k, k < kc -> kBlock + k < n) ->
    exists s', copy_rows M n row kBlock b kc s = Ret s' /\ is_strip M n row kBlock b kc s'.
  Proof.
    intros HM Hs Hr Hk. exists (applyL (grid_us b kc (fun ii k _ => ent n M (row + ii) (kBlock + k))) s). split.
    - unfold copy_rows. apply (forS_grid (b * kc)); [done|]. intros ii k s' Hii Hkk Hs'.
      rewrite <- Nat.add_assoc. rewrite ent_get by auto. cbn [pbind]. apply vset_ok. rewrite Hs'. by apply mixed_lt.
    - split; [by rewrite length_applyL|]. intros ii k Hii Hkk. rewrite grid_lookup by done.
      destruct (lookup_lt_is_Some_2 s (ii * kc + k)) as [x ->]; [|done]. rewrite Hs. by apply mixed_lt.
  Qed.
  Lemma zero_block_ok bx by_ (s : list T) : length s = bx * by_ -> zero_block bx by_ s = Ret (replicate (bx * by_) nzero).
  Proof.
    intros Hs. unfold zero_block.
    rewrite (forS_grid (bx * by_) bx by_ (fun _ _ _ => nzero)); [|done|].
    - f_equal. apply list_eq. intros p. destruct (decide (p < bx * by_)) as [Hp|Hp].
      + assert (by_ <> 0) as Hne by lia. pose proof (Nat.div_mod p by_ Hne) as Hd.
        pose proof (Nat.mod_upper_bound p by_ Hne). rewrite Hd, (Nat.mul_comm by_).
        assert (p / by_ < bx) by (apply Nat.div_lt_upper_bound; lia).
        rewrite grid_lookup by done. rewrite lookup_replicate_2 by (by apply mixed_lt).
        destruct (lookup_lt_is_Some_2 s (p / by_ * by_ + p mod by_)) as [x ->]; [|done]. rewrite Hs. by apply mixed_lt.
      + rewrite !(proj2 (lookup_ge_None _ _)); [done| |].
        * rewrite replicate_length. lia.
        * rewrite length_applyL. lia.
    - intros i j s' Hi Hj Hs'. apply vset_ok. rewrite Hs'. by apply mixed_lt.
  Qed.

  (** Errors of the parts. *)
  Definition ubE (e : err) : Prop := is_ub e = true.
  Lemma errD_copy_rows (M : list T) n row kBlock b kc s : errD ubE (copy_rows M n row kBlock b kc s).
  Proof.
    apply errD_forS; [lia|]. intros ii s' _. apply errD_forS; [lia|]. intros k s'' _.
    apply errD_bind; [by apply errD_vget|]. intros v. by apply errD_vset.
  Qed.
  Lemma errD_zero_block bx by_ (s : list T) : errD ubE (zero_block bx by_ s).
  Proof. apply errD_forS; [lia|]. intros ii s' _. apply errD_forS; [lia|]. intros k s'' _. by apply errD_vset. Qed.
  Lemma errD_write_block n i j bx by_ (s : list T) : errD ubE (write_block n i j bx by_ s).
  Proof.
    apply errD_forS; [lia|]. intros ii s' _. apply errD_forS; [lia|]. intros k s'' _.
    apply errD_bind; [by apply errD_vget|]. intros x. by apply errD_wr.
  Qed.
  Lemma errD_add_to (s : list T) x v : errD ubE (add_to s x v).
  Proof. apply errD_bind; [by apply errD_vget|]. intros r. by apply errD_vset. Qed.

  (** Blocks that stick out: row n is read up to column n-1. *)
  Lemma not_multiple b n : 0 < b -> ~ (b | n) -> exists i, i ∈ rng 0 n b /\ i < n < i + b.
  Proof.
    intros Hb Hn. pose proof (Nat.mod_upper_bound n b ltac:(lia)). pose proof (Nat.div_mod n b ltac:(lia)) as Hd.
    assert (n mod b <> 0). { intros E. apply Hn. exists (n / b). lia. }
    exists (n / b * b). split; [|lia]. apply elem_of_rng; [done|]. exists (n / b). lia.
  Qed.
  Lemma last_chunk kc n : 0 < kc -> 0 < n -> exists kBlock k, kBlock ∈ rng 0 n kc /\ k < kc /\ kBlock + k = n - 1.
  Proof.
    intros Hb Hn. pose proof (Nat.mod_upper_bound (n - 1) kc ltac:(lia)). pose proof (Nat.div_mod (n - 1) kc ltac:(lia)) as Hd.
    exists ((n - 1) / kc * kc), ((n - 1) mod kc). split_and!; [|lia|lia].
    apply elem_of_rng; [done|]. exists ((n - 1) / kc). lia.
  Qed.
  Lemma noret_copy_rows (M : list T) n row kBlock b kc s k :
    row <= n < row + b -> k < kc -> kBlock + k = n - 1 -> length M < n * n + n -> noret (copy_rows M n row kBlock b kc s).
  Proof.
    intros Hr Hk Hl HM. unfold copy_rows. apply (noret_forS _ _ _ _ _ (n - row)); [lia|rewrite rng_0_1; apply elem_of_seq; lia|].
    intros s1. apply (noret_forS _ _ _ _ _ k); [lia|rewrite rng_0_1; apply elem_of_seq; lia|].
    intros s2. apply noret_bind_l, noret_vget. replace (row + (n - row)) with n by lia. lia.
  Qed.
End Parts.

(** ** multGPU *)
Section GPU.
  Context {T : Type} `{NumOps T}.
  Context (b kc : nat) (junk : T) (A B C : list T) (n : nat).
  Context (Hb : 0 < b) (Hkc : 0 < kc).

  Section Multiple.
    Context (Hbn : (b | n)) (Hkn : (kc | n)) (Hk4 : (4 | kc)).
    Context (HA : n * n <= length A) (HB : n * n <= length B) (HC : length C = n * n).
    Definition term (i j k : nat) : T := nmul (ent n A i k) (ent n B j k).
    Definition add_lanes (i j kBlock : nat) (v : T) : T :=
      foldl (fun acc l => nadd acc (lane kc (term i j) kBlock l)) v (seq 0 4).

    Lemma gpu_cell_ok i j kBlock AA BB ii jj r :
      is_strip A n i kBlock b kc AA -> is_strip B n j kBlock b kc BB -> length r = b * b -> ii < b -> jj < b ->
      gpu_cell junk AA BB b kc ii jj r = Ret (applyL [(ii * b + jj, add_lanes (i + ii) (j + jj) kBlock)] r).
    Proof.
      intros [_ HAA] [_ HBB] Hr Hii Hjj. unfold gpu_cell.
      assert (forS 0 4 1 (fun kk s => vset s kk nzero) (replicate 4 junk) = Ret (replicate 4 nzero)) as -> by reflexivity.
      cbn [pbind]. set (us := fun k => seq 0 4 ≫= fun kk => [(kk, fun v => nadd v (term (i + ii) (j + jj) (kBlock + (k + kk))))]).
      rewrite (forS_applyG 4 0 kc 4 _ us); [| lia | done|].
      2:{ intros k s Hk Hs. unfold us. apply (forS1_applyG 4); [done|]. intros kk s' Hkk Hs'.
          apply elem_of_rng in Hk as (q&Hq&Hk); [|lia]. rewrite Nat.add_0_l in Hq. subst k.
          pose proof (block_lt 4 kc q kk Hk4 ltac:(lia) Hkk Hk).
          rewrite !Nat.add_0_r, <- !Nat.add_assoc.
          rewrite (vget_lookup AA _ _ (HAA ii (q * 4 + kk) Hii ltac:(lia))).
          rewrite (vget_lookup BB _ _ (HBB jj (q * 4 + kk) Hjj ltac:(lia))). cbn [pbind].
          unfold add_to. rewrite add_to_ok by lia. done. }
      cbn [pbind]. rewrite Nat.add_0_r.
      rewrite (forS1_applyG (b * b) 4 _ (fun l => [(ii * b + jj, fun v => nadd v (lane kc (term (i + ii) (j + jj)) kBlock l))])); [|done|].
      - by rewrite applyL_merge.
      - intros l s Hl Hs. rewrite (vget_lookup _ _ (lane kc (term (i + ii) (j + jj)) kBlock l)).
        + cbn [pbind]. unfold add_to. rewrite !Nat.add_0_r. rewrite add_to_ok; [done|]. rewrite Hs. by apply mixed_lt.
        + rewrite applyL_lookup, lookup_replicate_2 by done. cbn. f_equal. unfold us. rewrite contrib_bind.
          rewrite (bind_ext _ (fun k => [fun v => nadd v (term (i + ii) (j + jj) (kBlock + (k + l)))])).
          2:{ intros k _. rewrite contrib_bind, (bind_select _ _ l); [apply contrib_single_eq|apply NoDup_seq|apply elem_of_seq; lia|].
              intros x _ Hne. by apply contrib_single_ne. }
          rewrite bind_ret_fmap, fold_upd_fmap, rng_step by exact Hk4.
          unfold lane. rewrite (dot_ext _ (fun r => term (i + ii) (j + jj) (kBlock + (4 * r + l)))).
          * unfold dot. generalize (nzero : T). induction (seq 0 (kc / 4)) as [|x L IH]; intros z; [done|]. apply IH.
          * intros x _. f_equal. lia.
    Qed.
    Lemma gpu_chunk_ok i j kBlock r : corner n b b i j -> kBlock ∈ rng 0 n kc -> length r = b * b ->
      gpu_chunk junk A B n i j b kc kBlock r =
        Ret (applyL (grid_us b b (fun ii jj => add_lanes (i + ii) (j + jj) kBlock)) r).
    Proof.
      intros [Hi Hj] Hk Hr. unfold gpu_chunk.
      assert (forall k, k < kc -> kBlock + k < n) as HK by (intros k Hk'; by apply (corner_row n kc Hkc Hkn)).
      destruct (copy_rows_ok A n i kBlock b kc (replicate (b * kc) junk) HA) as (AA&->&HAA); [by rewrite replicate_length| |done|].
      { intros ii Hii. by apply (corner_row n b Hb Hbn). }
      destruct (copy_rows_ok B n j kBlock b kc (replicate (b * kc) junk) HB) as (BB&->&HBB); [by rewrite replicate_length| |done|].
      { intros ii Hii. by apply (corner_row n b Hb Hbn). }
      cbn [pbind]. apply (forS_grid (b * b)); [done|]. intros ii jj s Hii Hjj Hs. by apply gpu_cell_ok.
    Qed.
    Theorem multGPU_correct : always (multGPU_with b kc junk A B C n) (is_matrix n (lanes_entry kc n A B)).
    Proof.
      unfold multGPU_with.
      apply (written_par n b b C Hb Hb Hbn Hbn HC (gpu_block junk A B n b kc)).
      intros i j Hc. unfold gpu_block. rewrite zero_block_ok by (by rewrite replicate_length). cbn [pbind].
      rewrite (forS_applyG (b * b) _ _ _ _ (fun kBlock => grid_us b b (fun ii jj => add_lanes (i + ii) (j + jj) kBlock)));
        [|done|by rewrite replicate_length|intros k r Hk Hr; by apply gpu_chunk_ok].
      eexists. split; [done|].
      intros ii jj Hii Hjj. rewrite applyL_lookup, contrib_grids by done.
        rewrite lookup_replicate_2 by (by apply mixed_lt). cbn. f_equal.
        rewrite fold_upd_fmap. unfold lanes_entry, dot_lanes.
        rewrite (rng_div kc n Hkc Hkn). generalize (nzero : T). clear.
        induction (seq 0 (n / kc)) as [|x L IH]; intros z; [done|]. apply IH.
    Qed.
  End Multiple.

  Lemma errD_gpu_block i j : errD ubE (gpu_block junk A B n b kc i j).
  Proof.
    unfold gpu_block. apply errD_bind; [apply errD_zero_block|]. intros r. apply errD_bind; [|intros r'; apply errD_write_block].
    apply errD_forS; [lia|]. intros kBlock s _. unfold gpu_chunk.
    apply errD_bind; [apply errD_copy_rows|]. intros AA. apply errD_bind; [apply errD_copy_rows|]. intros BB.
    apply errD_forS; [lia|]. intros ii s1 _. apply errD_forS; [lia|]. intros jj s2 _. unfold gpu_cell.
    apply errD_bind; [apply errD_forS; [lia|]; intros; by apply errD_vset|]. intros ch.
    apply errD_bind.
    - apply errD_forS; [lia|]. intros k s3 _. apply errD_forS; [lia|]. intros kk s4 _.
      apply errD_bind; [by apply errD_vget|]. intros x. apply errD_bind; [by apply errD_vget|]. intros y. apply errD_add_to.
    - intros ch'. apply errD_forS; [lia|]. intros k s3 _. apply errD_bind; [by apply errD_vget|]. intros x. apply errD_add_to.
  Qed.
  Theorem multGPU_other : ~ (b | n) -> length A < n * n + n -> always_ub (multGPU_with b kc junk A B C n).
  Proof.
    intros Hn HA. destruct (not_multiple b n Hb Hn) as (i&Hi&Hin). apply fail_with_C.
    - apply (noret_parL _ _ i); [done|].
      apply (noret_forS _ _ _ _ _ 0); [done|apply elem_of_rng; [done|]; exists 0; lia|]. intros _.
      destruct (last_chunk kc n Hkc ltac:(lia)) as (kBlock&k&Hk1&Hk2&Hk3).
      unfold gpu_block. apply noret_bind_r. intros r. apply noret_bind_l, (noret_forS _ _ _ _ _ kBlock); [done|done|].
      intros s. unfold gpu_chunk. apply noret_bind_l. eapply noret_copy_rows; [|done|done|done]. lia.
    - apply errD_parL. intros i' _. apply errD_forS; [lia|]. intros j _ _. apply errD_gpu_block.
  Qed.
End GPU.

(** ** multExchanged *)
Section Exchanged.
  Context {T : Type} `{NumOps T}.
  Context (bx by_ kc : nat) (junk : T) (A B C : list T) (n : nat).
  Context (Hbx : 0 < bx) (Hby : 0 < by_) (Hkc : 0 < kc).

  Section Multiple.
    Context (Hxn : (bx | n)) (Hyn : (by_ | n)) (Hkn : (kc | n)) (Hx4 : (4 | bx)) (Hy4 : (4 | by_)) (Hk4 : (4 | kc)).
    Context (HA : n * n <= length A) (HB : n * n <= length B) (HC : length C = n * n).
    Definition xterm (i j k : nat) : T := nmul (ent n A i k) (ent n B k j).
    Definition is_strip_t (j kBlock : nat) (s : list T) : Prop :=
      forall jj k, jj < by_ -> k < kc -> s !! (jj * kc + k) = Some (ent n B (kBlock + k) (j + jj)).

    Lemma exchanged_copy_B_ok j kBlock s : length s = by_ * kc ->
      (forall jj, jj < by_ -> j + jj < n) -> (forall k, k < kc -> kBlock + k < n) ->
      exists s', exchanged_copy_B B n j kBlock by_ kc s = Ret s' /\ is_strip_t j kBlock s'.
    Proof.
      intros Hs Hj Hk. set (us := fun k => seq 0 by_ ≫= fun jj => [(jj * kc + k, fun _ : T => ent n B (kBlock + k) (j + jj))]).
      exists (applyL (seq 0 kc ≫= us) s). split.
      - unfold exchanged_copy_B. apply (forS1_applyG (by_ * kc)); [done|]. intros k s' Hk' Hs'.
        apply (forS1_applyG (by_ * kc)); [done|]. intros jj s'' Hjj Hs''.
        rewrite ent_get by auto. cbn [pbind]. apply vset_ok. rewrite Hs''. by apply mixed_lt.
      - intros jj k Hjj Hk'. rewrite applyL_lookup, contrib_bind, (bind_select _ _ k); [|apply NoDup_seq|apply elem_of_seq; lia|].
        + unfold us. rewrite contrib_bind, (bind_select _ _ jj); [|apply NoDup_seq|apply elem_of_seq; lia|].
          * rewrite contrib_single_eq. destruct (lookup_lt_is_Some_2 s (jj * kc + k)) as [x ->]; [|done].
            rewrite Hs. by apply mixed_lt.
          * intros jj' _ Hne. apply contrib_single_ne. intros He. apply mixed_inj in He as [? ?]; done.
        + intros k' Hk1%elem_of_seq Hne. unfold us. apply contrib_none. intros u (jj'&Hu&_)%elem_of_list_bind.
          apply elem_of_list_singleton in Hu as ->. cbn [fst]. intros He. apply mixed_inj in He as [? ?]; [done|lia|done].
    Qed.
    Lemma exchanged_reg_ok i kBlock AA ii k r : is_strip A n i kBlock bx kc AA -> ii + r < bx -> k + 3 < kc ->
      exists R, exchanged_reg junk AA kc ii k r = Ret R /\
        forall kk, kk < 4 -> R !! kk = Some (ent n A (i + (ii + r)) (kBlock + (k + kk))).
    Proof.
      intros [_ HAA] Hr Hk. exists (applyL (seq 0 4 ≫= fun kk => [(kk, fun _ : T => ent n A (i + (ii + r)) (kBlock + (k + kk)))]) (replicate 4 junk)).
      split.
      - unfold exchanged_reg. apply (forS1_applyG 4); [done|]. intros kk s Hkk Hs. rewrite <- Nat.add_assoc.
        rewrite (vget_lookup AA _ _ (HAA (ii + r) (k + kk) Hr ltac:(lia))). cbn [pbind]. apply vset_ok. lia.
      - intros kk Hkk. rewrite applyL_lookup, lookup_replicate_2, contrib_bind by done.
        rewrite (bind_select _ _ kk); [by rewrite contrib_single_eq|apply NoDup_seq|apply elem_of_seq; lia|].
        intros x _ Hne. by apply contrib_single_ne.
    Qed.
    Definition inner_us (i j kBlock : nat) : list (nat * (T -> T)) :=
      rng 0 bx 4 ≫= fun ii => rng 0 kc 4 ≫= fun k => rng 0 by_ 4 ≫= fun jj =>
      seq 0 4 ≫= fun kk => seq 0 4 ≫= fun r => seq 0 4 ≫= fun c =>
      [((ii + r) * by_ + (jj + c), fun v => nadd v (xterm (i + (ii + r)) (j + (jj + c)) (kBlock + (k + kk))))].
    Lemma step4 m x d : (4 | m) -> x ∈ rng 0 m 4 -> d < 4 -> x + d < m.
    Proof.
      intros Hm Hx Hd. apply elem_of_rng in Hx as (q&->&Hq); [|lia]. simpl in *. apply (block_lt 4 m q d Hm); [lia|done|done].
    Qed.
    Lemma exchanged_inner_ok i j kBlock AA BB s :
      is_strip A n i kBlock bx kc AA -> is_strip_t j kBlock BB -> length s = bx * by_ ->
      exchanged_inner junk AA BB bx by_ kc s = Ret (applyL (inner_us i j kBlock) s).
    Proof.
      intros HAA HBB Hs. unfold exchanged_inner, inner_us. apply (forS_applyG (bx * by_)); [lia|done|].
      intros ii s1 Hii Hs1. apply (forS_applyG (bx * by_)); [lia|done|]. intros k s2 Hk Hs2.
      pose proof (step4 kc k 3 Hk4 Hk ltac:(lia)) as Hk3.
      assert (forall r, r < 4 -> ii + r < bx) as Hrow by (intros r Hr; by apply step4).
      destruct (exchanged_reg_ok i kBlock AA ii k 0 HAA (Hrow 0 ltac:(lia)) Hk3) as (R1&->&HR1).
      destruct (exchanged_reg_ok i kBlock AA ii k 1 HAA (Hrow 1 ltac:(lia)) Hk3) as (R2&->&HR2).
      destruct (exchanged_reg_ok i kBlock AA ii k 2 HAA (Hrow 2 ltac:(lia)) Hk3) as (R3&->&HR3).
      destruct (exchanged_reg_ok i kBlock AA ii k 3 HAA (Hrow 3 ltac:(lia)) Hk3) as (R4&->&HR4).
      cbn [pbind]. apply (forS_applyG (bx * by_)); [lia|done|]. intros jj s3 Hjj Hs3.
      apply (forS1_applyG (bx * by_)); [done|]. intros kk s4 Hkk Hs4.
      rewrite (foldP_applyG (bx * by_) _ _ (fun '(_, r) => seq 0 4 ≫= fun c =>
        [((ii + r) * by_ + (jj + c), fun v => nadd v (xterm (i + (ii + r)) (j + (jj + c)) (kBlock + (k + kk))))])); [done|done|].
      intros [R r] s5 HR Hs5.
      assert (r < 4 /\ R !! kk = Some (ent n A (i + (ii + r)) (kBlock + (k + kk)))) as [Hr HRk].
      { rewrite !elem_of_cons in HR. destruct HR as [[= -> ->]|[[= -> ->]|[[= -> ->]|[[= -> ->]|[]%elem_of_nil]]]]; (split; [lia|auto]). }
      apply (forS1_applyG (bx * by_)); [done|]. intros c s6 Hc Hs6.
      pose proof (step4 by_ jj c Hy4 Hjj Hc) as Hcol.
      rewrite (vget_lookup R _ _ HRk).
      rewrite (vget_lookup BB _ _ (HBB (jj + c) (k + kk) Hcol ltac:(lia))). cbn [pbind].
      unfold add_to. rewrite <- Nat.add_assoc. apply add_to_ok. rewrite Hs6. apply mixed_lt; auto.
    Qed.
    Lemma inner_contrib i j kBlock I J : I < bx -> J < by_ ->
      contrib (I * by_ + J) (inner_us i j kBlock) = (fun k v => nadd v (xterm (i + I) (j + J) (kBlock + k))) <$> seq 0 kc.
    Proof.
      intros HI HJ. unfold inner_us.
      destruct (find_blk bx 4 I ltac:(lia) HI) as (ii&r&Hii&Hr&->).
      destruct (find_blk by_ 4 J ltac:(lia) HJ) as (jj&c&Hjj&Hc&->).
      rewrite contrib_bind, (bind_select _ _ ii); [|by apply NoDup_rng; lia|done|].
      - rewrite contrib_bind, <- (seq_by 4 kc) by (lia || exact Hk4). apply bind_ext. intros k _.
        rewrite contrib_bind, (bind_select _ _ jj); [|by apply NoDup_rng; lia|done|].
        + rewrite contrib_bind, <- bind_ret_fmap. apply bind_ext. intros kk _.
          rewrite contrib_bind, (bind_select _ _ r); [|apply NoDup_seq|apply elem_of_seq; lia|].
          * rewrite contrib_bind, (bind_select _ _ c); [|apply NoDup_seq|apply elem_of_seq; lia|].
            -- apply contrib_single_eq.
            -- intros c' _ Hne. apply contrib_single_ne. lia.
          * intros r' Hr'%elem_of_seq Hne. apply contrib_none. intros u (c'&Hu&Hc'%elem_of_seq)%elem_of_list_bind.
            apply elem_of_list_singleton in Hu as ->. cbn [fst]. intros He.
            pose proof (step4 by_ jj c' Hy4 Hjj ltac:(lia)). apply mixed_inj in He as [? ?]; [lia|done|done].
        + intros jj' Hjj' Hne. apply contrib_none.
          intros u (kk&(r'&(c'&Hu&Hc'%elem_of_seq)%elem_of_list_bind&Hr'%elem_of_seq)%elem_of_list_bind&Hkk)%elem_of_list_bind.
          apply elem_of_list_singleton in Hu as ->. cbn [fst]. intros He.
          pose proof (step4 by_ jj' c' Hy4 Hjj' ltac:(lia)). apply mixed_inj in He as [_ He]; [|done|done].
          apply elem_of_rng in Hjj as (q&->&_); [|lia]. apply elem_of_rng in Hjj' as (q'&->&_); [|lia]. simpl in *.
          apply mixed_inj in He as [? ?]; [|lia|lia]. subst. done.
      - intros ii' Hii' Hne. apply contrib_none.
        intros u (k&(jj'&(kk&(r'&(c'&Hu&Hc'%elem_of_seq)%elem_of_list_bind&Hr'%elem_of_seq)%elem_of_list_bind&Hkk)%elem_of_list_bind&Hjj')%elem_of_list_bind&Hk)%elem_of_list_bind.
        apply elem_of_list_singleton in Hu as ->. cbn [fst]. intros He.
        pose proof (step4 by_ jj' c' Hy4 Hjj' ltac:(lia)). apply mixed_inj in He as [He _]; [|done|done].
        apply elem_of_rng in Hii as (q&->&_); [|lia]. apply elem_of_rng in Hii' as (q'&->&_); [|lia]. simpl in *.
        apply mixed_inj in He as [? ?]; [|lia|lia]. subst. done.
    Qed.
    Theorem multExchanged_correct : always (multExchanged_with bx by_ kc junk A B C n) (is_matrix n (prod_entry n A B)).
    Proof.
      unfold multExchanged_with.
      apply (written_par n bx by_ C Hbx Hby Hxn Hyn HC (exchanged_block junk A B n bx by_ kc)).
      intros i j [Hi Hj]. unfold exchanged_block. rewrite zero_block_ok by (by rewrite replicate_length). cbn [pbind].
      exists (applyL (rng 0 n kc ≫= inner_us i j) (replicate (bx * by_) nzero)). split.
      - rewrite (forS_applyG (bx * by_) _ _ _ _ (inner_us i j)); [done|done|by rewrite replicate_length|].
        intros kBlock r Hk Hr. unfold exchanged_chunk.
        assert (forall k, k < kc -> kBlock + k < n) as HK by (intros k Hk'; by apply (corner_row n kc Hkc Hkn)).
        destruct (copy_rows_ok A n i kBlock bx kc (replicate (bx * kc) junk) HA) as (AA&->&HAA); [by rewrite replicate_length| |done|].
        { intros ii Hii. by apply (corner_row n bx Hbx Hxn). }
        destruct (exchanged_copy_B_ok j kBlock (replicate (by_ * kc) junk)) as (BB&->&HBB); [by rewrite replicate_length| |done|].
        { intros ii Hii. by apply (corner_row n by_ Hby Hyn). }
        cbn [pbind]. by apply exchanged_inner_ok.
      - intros ii jj Hii Hjj. rewrite applyL_lookup, contrib_bind.
        rewrite lookup_replicate_2 by (by apply mixed_lt). cbn. f_equal.
        rewrite (bind_ext _ (fun kB => (fun kk v => nadd v (xterm (i + ii) (j + jj) (kB + kk))) <$> seq 0 kc)).
        2:{ intros kB _. by apply inner_contrib. }
        rewrite (seq_by kc n (fun k v => nadd v (xterm (i + ii) (j + jj) k)) Hkc Hkn).
        by rewrite fold_upd_fmap.
    Qed.
  End Multiple.

  Lemma errD_exchanged_block i j : errD ubE (exchanged_block junk A B n bx by_ kc i j).
  Proof.
    unfold exchanged_block. apply errD_bind; [apply errD_zero_block|]. intros r. apply errD_bind; [|intros r'; apply errD_write_block].
    apply errD_forS; [lia|]. intros kBlock s _. unfold exchanged_chunk.
    apply errD_bind; [apply errD_copy_rows|]. intros AA. apply errD_bind.
    { apply errD_forS; [lia|]. intros k s1 _. apply errD_forS; [lia|]. intros jj s2 _.
      apply errD_bind; [by apply errD_vget|]. intros v. by apply errD_vset. }
    intros BB. apply errD_forS; [lia|]. intros ii s1 _. apply errD_forS; [lia|]. intros k s2 _.
    assert (forall r, errD ubE (exchanged_reg junk AA kc ii k r)) as Hreg.
    { intros q. apply errD_forS; [lia|]. intros kk s3 _. apply errD_bind; [by apply errD_vget|]. intros v. by apply errD_vset. }
    do 4 (apply errD_bind; [apply Hreg|]; intros ?). apply errD_forS; [lia|]. intros jj s3 _.
    apply errD_forS; [lia|]. intros kk s4 _. apply errD_foldP. intros [R q] s5 _. apply errD_forS; [lia|]. intros c s6 _.
    apply errD_bind; [by apply errD_vget|]. intros x. apply errD_bind; [by apply errD_vget|]. intros y. apply errD_add_to.
  Qed.
  Theorem multExchanged_other : ~ (bx | n) -> length A < n * n + n -> always_ub (multExchanged_with bx by_ kc junk A B C n).
  Proof.
    intros Hn HA. destruct (not_multiple bx n Hbx Hn) as (i&Hi&Hin). apply fail_with_C.
    - apply (noret_parL _ _ i); [done|].
      apply (noret_forS _ _ _ _ _ 0); [done|apply elem_of_rng; [done|]; exists 0; lia|]. intros _.
      destruct (last_chunk kc n Hkc ltac:(lia)) as (kBlock&k&Hk1&Hk2&Hk3).
      unfold exchanged_block. apply noret_bind_r. intros r. apply noret_bind_l, (noret_forS _ _ _ _ _ kBlock); [done|done|].
      intros s. unfold exchanged_chunk. apply noret_bind_l. eapply noret_copy_rows; [|done|done|done]. lia.
    - apply errD_parL. intros i' _. apply errD_forS; [lia|]. intros j _ _. apply errD_exchanged_block.
  Qed.
End Exchanged.
