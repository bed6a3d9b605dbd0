(** Proofs about multASM and multGPUASM. *)
From Verif Require Import SpecExp2 Tools Tools2 Tools3 MExp2 PExp PExpBlocks PExp2 PExpIntrin PExpReg.

(** ** Bodies that write a single entry of C *)
Section Cells.
  Context {T : Type} `{NumOps T}.
  Context (C : list T) (n : nat) (HC : length C = n * n).
  Lemma div1 : (1 | n).
  Proof. exists n. lia. Qed.
  Lemma cells_par (body : nat -> nat -> prog T unit) (f : nat -> nat -> T) :
    (forall i j, i < n -> j < n -> body i j = wr cC (i * n + j) (f i j)) ->
    always (with_C C (parL (rng 0 n 1) (fun i => forP 0 n 1 (body i)))) (is_matrix n f).
  Proof.
    intros Hb. assert (forall i j, corner n 1 1 i j -> i < n /\ j < n) as Hc.
    { intros i j [Hi Hj]. rewrite rng_0_1 in Hi, Hj. apply elem_of_seq in Hi, Hj. lia. }
    apply (blocks_par n 1 1 C ltac:(lia) ltac:(lia) div1 div1 HC body
      (fun i j => [((cC, i * n + j), fun _ => f i j)]) (fun i j _ => f i j)).
    - intros i j [Hi Hj]%Hc. rewrite Hb by done. apply does_wr.
    - intros i j u _ ->%elem_of_list_singleton. exists 0, 0. rewrite !Nat.add_0_r. split_and!; [lia|lia|done].
    - intros i j ii jj v _ Hii Hjj. replace ii with 0 by lia. replace jj with 0 by lia. rewrite !Nat.add_0_r.
      by rewrite contrib_single_eq.
    - intros i j [Hi Hj]%Hc. rewrite Hb by done. apply acc_in_wr. exists 0, 0.
      rewrite !Nat.add_0_r. split_and!; [lia|lia|done].
    - intros i j [Hi Hj]%Hc. rewrite Hb by done. apply drf_wr.
  Qed.
End Cells.

(** ** multASM *)
Section ASM.
  Context {T : Type} `{NumOps T}.
  Context (offA offB : nat) (A B C : list T) (n : nat).
  Section Right.
    Context (HA : n * n <= length A) (HB : n * n <= length B) (HC : length C = n * n).
    Context (H4 : (4 | n)) (HoA : offA mod 4 = 0) (HoB : offB mod 4 = 0).
    Lemma asm_load off (M : list T) i k : n * n <= length M -> off mod 4 = 0 -> i < n -> (4 | k) -> k + 3 < n ->
      load_pd off M (i * n + k) = Ret (vec4 (fun l => ent n M i (k + l))).
    Proof.
      intros HM Ho Hi Hk Hkn. apply load_ok.
      - apply aligned4; [done|]. apply Nat.divide_add_r; [by apply Nat.divide_mul_r|exact Hk].
      - intros l Hl. rewrite <- Nat.add_assoc. apply ent_lookup. pose proof (mixed_lt n n i (k + l) Hi ltac:(lia)). lia.
    Qed.
    Lemma asm_fold i j (L : list nat) (g : nat -> T) : i < n -> j < n -> (forall k, k ∈ L -> (4 | k) /\ k + 3 < n) ->
      foldP L (asm_step offA offB A B (i * n) (j * n)) (vec4 g) =
        Ret (vec4 (fun l => foldl (fun acc k => nadd acc (nmul (ent n B j (k + l)) (ent n A i (k + l)))) (g l) L)).
    Proof.
      intros Hi Hj. revert g. induction L as [|k L IH]; intros g HL; [done|]. cbn [foldP foldl].
      destruct (HL k ltac:(by left)) as [Hk4 Hkn].
      assert (asm_step offA offB A B (i * n) (j * n) k (vec4 g) =
                Ret (vec4 (fun l => nadd (g l) (nmul (ent n B j (k + l)) (ent n A i (k + l)))))) as ->.
      { unfold asm_step. by rewrite (asm_load offA A i k HA HoA Hi Hk4 Hkn), (asm_load offB B j k HB HoB Hj Hk4 Hkn). }
      cbn [pbind].
      apply (IH (fun l => nadd (g l) (nmul (ent n B j (k + l)) (ent n A i (k + l))))). intros x Hx. apply HL. by right.
    Qed.
    Lemma rng_unroll : 0 < n -> 0 :: rng 4 n 4 = rng 0 n 4.
    Proof.
      intros Hn. destruct H4 as [[|q] E]; [lia|]. rewrite E.
      rewrite rng_0_exact by lia.
      replace (S q * 4) with (4 + q * 4) by lia. rewrite rng_exact by lia.
      rewrite <- cons_seq, fmap_cons. f_equal. rewrite <- fmap_S_seq, <- list_fmap_compose. apply list_fmap_ext. intros _ x _. cbn. lia.
    Qed.
    Lemma asm_cell_ok i j : i < n -> j < n ->
      asm_cell true offA offB A B n i j = wr cC (i * n + j) (dot_lanes n (fun k => nmul (ent n B j k) (ent n A i k)) n).
    Proof.
      intros Hi Hj. unfold asm_cell. rewrite rng_unroll by lia.
      change (set1_pd nzero) with (vec4 (fun _ : nat => nzero : T)).
      rewrite asm_fold; [|done|done|].
      - cbn [pbind]. unfold dot_lanes. rewrite Nat.div_same by lia. change (seq 0 1) with [0]. cbn [foldl].
        rewrite Nat.mul_0_l.
        assert (forall l, l < 4 -> foldl (fun acc k => nadd acc (nmul (ent n B j (k + l)) (ent n A i (k + l)))) nzero (rng 0 n 4)
                  = lane n (fun k => nmul (ent n B j k) (ent n A i k)) 0 l) as E.
        { intros l Hl. unfold lane, dot. rewrite rng_step by exact H4. rewrite foldl_fmap'. done. }
        rewrite (forS1_dot 4 _ (fun l => lane n (fun k => nmul (ent n B j k) (ent n A i k)) 0 l)); [done|].
        intros l acc Hl. rewrite out_vec4 by done. by rewrite E.
      - intros k Hk. split; [apply (rng_multiple n 4); [lia|exact Hk]|]. apply (corner_row n 4 ltac:(lia) H4); [exact Hk|lia].
    Qed.
    Theorem multASM_correct :
      always (multASM true offA offB A B C n) (is_matrix n (fun i j => dot_lanes n (fun k => nmul (ent n B j k) (ent n A i k)) n)).
    Proof. apply (cells_par C n HC). intros i j Hi Hj. by apply asm_cell_ok. Qed.
  End Right.
  Theorem multASM_unsupported : length C = n * n ->
    always (multASM false offA offB A B C n) (is_matrix n (fun _ _ => dot (fun _ => nzero) (seq 0 4))).
  Proof. intros HC. apply (cells_par C n HC). intros i j Hi Hj. done. Qed.

  Lemma errD_asm i j : errD ubE (asm_cell true offA offB A B n i j).
  Proof.
    unfold asm_cell. apply errD_bind.
    - apply errD_foldP. intros k s _. unfold asm_step. do 2 (apply errD_bind; [apply errD_load|intros [[[? ?] ?] ?]]). by destruct s as [[[? ?] ?] ?].
    - intros v. apply errD_bind; [|intros r; by apply errD_wr]. apply errD_forS; [lia|]. intros l s _. done.
  Qed.
  Lemma asm_fails i j : i < n -> j < n ->
    (forall k s, k = 0 -> noret (asm_step offA offB A B (i * n) (j * n) k s)) -> always_ub (multASM true offA offB A B C n).
  Proof.
    intros Hi Hj Hn. apply fail_with_C.
    - apply (noret_parL _ _ i); [rewrite rng_0_1; apply elem_of_seq; lia|]. apply (noret_forS _ _ _ _ _ j); [lia|rewrite rng_0_1; apply elem_of_seq; lia|].
      intros _. unfold asm_cell. apply noret_bind_l. apply (noret_foldP _ _ _ 0); [by left|]. intros s. by apply Hn.
    - apply errD_parL. intros i' _. apply errD_forS; [lia|]. intros j' _ _. apply errD_asm.
  Qed.
  Theorem multASM_misaligned : 0 < n -> offA mod 4 <> 0 \/ offB mod 4 <> 0 -> always_ub (multASM true offA offB A B C n).
  Proof.
    intros Hn Ho. apply (asm_fails 0 0); [done|done|]. intros k s ->. unfold asm_step. destruct Ho as [Ho|Ho].
    - apply noret_bind_l, noret_misaligned. by rewrite Nat.add_0_r.
    - apply noret_bind_r. intros a. apply noret_bind_l, noret_misaligned. by rewrite Nat.add_0_r.
  Qed.
  Theorem multASM_other : 2 <= n -> ~ (4 | n) -> always_ub (multASM true offA offB A B C n).
  Proof.
    intros Hn H4. destruct (decide (offA mod 4 = 0)) as [Ho|Ho]; [|apply multASM_misaligned; [lia|by left]].
    apply (asm_fails 1 0); [lia|lia|]. intros k s ->. unfold asm_step. apply noret_bind_l, noret_misaligned.
    intros E. apply H4. rewrite Nat.mul_1_l, Nat.add_0_r in E.
    apply Nat.mod_divides in E as [q Eq]; [|lia]. apply Nat.mod_divides in Ho as [q' Eq']; [|lia]. exists (q - q'). lia.
  Qed.
  Theorem multASM_one : n = 1 -> length A < 4 \/ length B < 4 -> always_ub (multASM true offA offB A B C n).
  Proof.
    intros Hn Hl. apply (asm_fails 0 0); [lia|lia|]. intros k s ->. unfold asm_step. destruct Hl as [Hl|Hl].
    - apply noret_bind_l, noret_load. cbn. lia.
    - apply noret_bind_r. intros a. apply noret_bind_l, noret_load. cbn. lia.
  Qed.
  Theorem asm_exact `{!Exact T} i j : (forall x y : T, nmul x y = nmul y x) -> 0 < n -> (4 | n) ->
    dot_lanes n (fun k => nmul (ent n B j k) (ent n A i k)) n = prod_t_entry n A B i j.
  Proof.
    intros Hcomm Hn H4. rewrite dot_lanes_exact; [|done|exact H4|exists 1; lia]. apply dot_ext. intros k _. apply Hcomm.
  Qed.
End ASM.

(** ** multGPUASM *)
Lemma rect_merge {T} W (L : list nat) r0 h c0 w (f : nat -> nat -> nat -> T -> T) (s : list T) bx :
  length s = bx * W -> c0 + w <= W ->
  applyL (L ≫= fun x => rect_us W r0 h c0 w (f x)) s = applyL (rect_us W r0 h c0 w (fun I J v => foldl (fun v x => f x I J v) v L)) s.
Proof.
  intros Hs Hw. apply list_eq. intros p. rewrite !applyL_lookup.
  destruct (decide (p < bx * W)) as [Hp|Hp]; [|rewrite (proj2 (lookup_ge_None s p)) by lia; done].
  assert (W <> 0) as HW by (intros ->; lia).
  pose proof (Nat.div_mod p W HW) as Ed. pose proof (Nat.mod_upper_bound p W HW) as Hm.
  rewrite Nat.mul_comm in Ed. rewrite Ed. set (I := p / W) in *. set (J := p mod W) in *. rewrite contrib_bind.
  destruct (decide (r0 <= I < r0 + h /\ c0 <= J < c0 + w)) as [[HI HJ]|Hn].
  - rewrite contrib_rect_in by done. rewrite (bind_ext _ (fun x => [f x I J])) by (intros x _; by apply contrib_rect_in).
    rewrite bind_ret_fmap. destruct (s !! (I * W + J)) as [v|]; [|done]. cbn [fmap option_fmap option_map]. f_equal.
    by rewrite fold_upd_fmap'.
  - rewrite contrib_rect_out by done. rewrite bind_nil; [done|]. intros x _. by apply contrib_rect_out.
Qed.

Section GPUASM.
  Context {T : Type} `{NumOps T}.
  Context (b kc : nat) (fma : option (T -> T -> T -> T)) (junk : T) (offAA offBB : nat) (A B C : list T) (n : nat).
  Context (Hb : 0 < b) (Hkc : 0 < kc).
  (** Without the products every lane stays zero. *)
  Definition olane (x y : nat -> T) (base l : nat) : T :=
    match fma with Some fma => fma_lane fma kc x y base l | None => nzero end.
  Definition olanes_entry (i j : nat) : T :=
    foldl (fun acc q => foldl (fun acc l => nadd acc (olane (ent n A i) (ent n B j) (q * kc) l)) acc (seq 0 4)) nzero (seq 0 (n / kc)).

  Section Tile.
    Context (i j kB : nat) (AA BB : list T) (ii jj : nat).
    Context (Hb4 : (4 | b)) (Hk4 : (4 | kc)).
    Context (HAA : forall I k, I < b -> k < kc -> AA !! (I * kc + k) = Some (ent n A (i + I) (kB + k))).
    Context (HBB : forall J k, J < b -> k < kc -> BB !! (J * kc + k) = Some (ent n B (j + J) (kB + k))).
    Context (Hii : ii ∈ rng 0 b 4) (Hjj : jj ∈ rng 0 b 4).
    Context (HoA : offAA mod 4 = 0) (HoB : offBB mod 4 = 0).
    Lemma gtile_row x r : x ∈ rng 0 b 4 -> r < 4 -> x + r < b.
    Proof. intros Hx. by apply (corner_row b 4 ltac:(lia) Hb4). Qed.
    Lemma gpuasm_load off (M : list T) g I k : off mod 4 = 0 -> (forall I k, I < b -> k < kc -> M !! (I * kc + k) = Some (g I k)) ->
      I < b -> k ∈ rng 0 kc 4 -> load_pd off M (I * kc + k) = Ret (vec4 (fun l => g I (k + l))).
    Proof.
      intros Ho HM HI Hk. apply load_ok.
      - apply aligned4; [done|]. apply Nat.divide_add_r; [by apply Nat.divide_mul_r|]. apply (rng_multiple kc 4); [lia|exact Hk].
      - intros l Hl. rewrite <- Nat.add_assoc. apply HM; [done|]. apply (corner_row kc 4 ltac:(lia) Hk4); done.
    Qed.
    Definition tile_lane (I J l : nat) : T := olane (ent n A (i + I)) (ent n B (j + J)) kB l.
    Lemma gpuasm_k_ok : exists ch, gpuasm_k fma offAA offBB AA BB kc ii jj (replicate 16 (set1_pd nzero)) = Ret ch /\
      forall r c, r < 4 -> c < 4 -> ch !! (r * 4 + c) = Some (vec4 (tile_lane (ii + r) (jj + c))).
    Proof.
      set (va := fun r k => vec4 (fun l => ent n A (i + (ii + r)) (kB + (k + l)))).
      set (vb := fun c k => vec4 (fun l => ent n B (j + (jj + c)) (kB + (k + l)))).
      assert (forall r k, r < 4 -> k ∈ rng 0 kc 4 -> load_pd offAA AA ((ii + r) * kc + k) = Ret (va r k)) as HLA.
      { intros r k Hr Hk. apply (gpuasm_load offAA AA (fun I k => ent n A (i + I) (kB + k))); [done|done|by apply gtile_row|done]. }
      assert (forall c k, c < 4 -> k ∈ rng 0 kc 4 -> load_pd offBB BB ((jj + c) * kc + k) = Ret (vb c k)) as HLB.
      { intros c k Hc Hk. apply (gpuasm_load offBB BB (fun J k => ent n B (j + J) (kB + k))); [done|done|by apply gtile_row|done]. }
      unfold gpuasm_k, tile_lane, olane. destruct fma as [f|].
      - set (us := fun k => grid_us 4 4 (fun r c => fmadd_pd f (va r k) (vb c k))).
        exists (applyL (rng 0 kc 4 ≫= us) (replicate 16 (set1_pd nzero))). split.
        + apply (forS_applyG 16); [lia|done|]. intros k s Hk Hs.
          rewrite !HLA, !HLB by (done || lia). cbn [pbind]. unfold us, grid_us.
          apply (forS1_applyG 16); [done|]. intros r s1 Hr Hs1. apply (forS1_applyG 16); [done|]. intros c s2 Hc Hs2.
          rewrite (gget_ok [va 0 k; va 1 k; va 2 k; va 3 k] r (va r k)).
          2:{ do 4 (destruct r as [|r]; [done|]). lia. }
          rewrite (gget_ok [vb 0 k; vb 1 k; vb 2 k; vb 3 k] c (vb c k)).
          2:{ do 4 (destruct c as [|c]; [done|]). lia. }
          cbn [pbind]. apply (gmod_ok s2 (r * 4 + c) (fmadd_pd f (va r k) (vb c k))). lia.
        + intros r c Hr Hc. rewrite applyL_lookup, lookup_replicate_2 by lia. cbn [fmap option_fmap option_map]. f_equal.
          rewrite contrib_bind. rewrite (bind_ext _ (fun k => [fmadd_pd f (va r k) (vb c k)])).
          2:{ intros k _. unfold us. by rewrite contrib_grid. }
          rewrite bind_ret_fmap, fold_upd_fmap'. change (set1_pd nzero) with (vec4 (fun _ : nat => nzero : T)). unfold va, vb.
          rewrite (foldl_vec f (fun k l => ent n A (i + (ii + r)) (kB + (k + l))) (fun k l => ent n B (j + (jj + c)) (kB + (k + l)))).
          apply vec4_ext. intros l Hl. unfold fma_lane, fma_dot. rewrite rng_step by exact Hk4. rewrite foldl_fmap'.
          apply foldl_ext_in. intros v q _. by rewrite !Nat.add_assoc.
      - exists (replicate 16 (set1_pd nzero)). split.
        + rewrite forS_step by lia. generalize (replicate 16 (set1_pd (nzero : T))). intros v.
          assert (forall k, k ∈ rng 0 kc 4 -> k ∈ rng 0 kc 4) as Hk by done. revert Hk. generalize (rng 0 kc 4) at 1 3. intros L.
          induction L as [|k L IH]; intros HL; [done|]. cbn [foldP]. pose proof (HL k ltac:(by left)) as Hk.
          rewrite !HLA, !HLB by (done || lia). cbn [pbind]. apply IH. intros x Hx. apply HL. by right.
        + intros r c Hr Hc. by rewrite lookup_replicate_2 by lia.
    Qed.
    Lemma gpuasm_tile_ok (s : list T) : length s = b * b ->
      gpuasm_tile fma offAA offBB AA BB b kc ii jj s =
        Ret (applyL (rect_us b ii 4 jj 4 (fun I J v => foldl (fun v l => nadd v (tile_lane I J l)) v (seq 0 4))) s).
    Proof.
      intros Hs. unfold gpuasm_tile. destruct gpuasm_k_ok as (ch&->&Hch). cbn [pbind].
      pose proof (gtile_row jj 3 Hjj ltac:(lia)).
      rewrite <- (rect_merge b (seq 0 4) ii 4 jj 4 (fun l I J v => nadd v (tile_lane I J l)) s b Hs) by lia.
      unfold gpuasm_sum. apply (forS1_applyG (b * b)); [done|]. intros l s1 Hl Hs1. unfold rect_us.
      apply (forS1_applyG (b * b)); [done|]. intros r s2 Hr Hs2. rewrite <- bind_ret_fmap.
      apply (forS1_applyG (b * b)); [done|]. intros c s3 Hc Hs3.
      rewrite (gget_ok _ _ _ (Hch r c Hr Hc)). cbn [pbind]. rewrite out_vec4 by done. unfold add_to.
      rewrite add_to_ok; [by rewrite Nat.add_assoc|]. rewrite Hs3, <- Nat.add_assoc. apply mixed_lt; by apply gtile_row.
    Qed.
  End Tile.

  Section Multiple.
    Context (Hbn : (b | n)) (Hkn : (kc | n)) (Hb4 : (4 | b)) (Hk4 : (4 | kc)).
    Context (HA : n * n <= length A) (HB : n * n <= length B) (HC : length C = n * n).
    Context (HoA : offAA mod 4 = 0) (HoB : offBB mod 4 = 0).
    Definition add_olanes (i j kB I J : nat) (v : T) : T :=
      foldl (fun v l => nadd v (olane (ent n A (i + I)) (ent n B (j + J)) kB l)) v (seq 0 4).
    Lemma gpuasm_chunk_ok i j kB s : corner n b b i j -> kB ∈ rng 0 n kc -> length s = b * b ->
      gpuasm_chunk fma junk offAA offBB A B n b kc i j kB s = Ret (applyL (tiles_us b b 4 4 (add_olanes i j kB)) s).
    Proof.
      intros [Hi Hj] Hk Hs. unfold gpuasm_chunk.
      assert (forall k, k < kc -> kB + k < n) as HK by (intros k Hk'; by apply (corner_row n kc Hkc Hkn)).
      destruct (copy_rows_ok A n i kB b kc (replicate (b * kc) junk) HA) as (AA&->&_&HAA); [by rewrite replicate_length| |done|].
      { intros ii Hii. by apply (corner_row n b Hb Hbn). }
      destruct (copy_rows_ok B n j kB b kc (replicate (b * kc) junk) HB) as (BB&->&_&HBB); [by rewrite replicate_length| |done|].
      { intros ii Hii. by apply (corner_row n b Hb Hbn). }
      cbn [pbind]. unfold tiles_us. apply (forS_applyG (b * b)); [lia|done|]. intros ii s1 Hii Hs1.
      apply (forS_applyG (b * b)); [lia|done|]. intros jj s2 Hjj Hs2. by apply (gpuasm_tile_ok i j kB).
    Qed.
    Theorem multGPUASM_entries : always (multGPUASM_with b kc fma junk offAA offBB A B C n) (is_matrix n olanes_entry).
    Proof.
      unfold multGPUASM_with.
      apply (written_par n b b C Hb Hb Hbn Hbn HC (gpuasm_block fma junk offAA offBB A B n b kc)).
      intros i j Hc. unfold gpuasm_block. rewrite zero_block_ok by (by rewrite replicate_length). cbn [pbind].
      rewrite (forS_applyG (b * b) _ _ _ _ (fun kB => tiles_us b b 4 4 (add_olanes i j kB)));
        [|done|by rewrite replicate_length|intros k r Hk Hr; by apply gpuasm_chunk_ok].
      eexists. split; [done|]. intros ii jj Hii Hjj. rewrite applyL_lookup, contrib_bind.
      rewrite lookup_replicate_2 by (by apply mixed_lt). cbn. f_equal.
      rewrite (bind_ext _ (fun kB => [add_olanes i j kB ii jj])) by (intros kB _; apply contrib_tiles; (lia || done)).
      rewrite bind_ret_fmap, fold_upd_fmap. unfold olanes_entry. rewrite (rng_div kc n Hkc Hkn), foldl_fmap'. done.
    Qed.
  End Multiple.

  Lemma errD_gpuasm i j : errD ubE (gpuasm_block fma junk offAA offBB A B n b kc i j).
  Proof.
    unfold gpuasm_block. apply errD_bind; [apply errD_zero_block|]. intros r. apply errD_bind; [|intros r'; apply errD_write_block].
    apply errD_forS; [lia|]. intros kB s1 _. unfold gpuasm_chunk. do 2 (apply errD_bind; [apply errD_copy_rows|intros ?]).
    apply errD_forS; [lia|]. intros ii s2 _. apply errD_forS; [lia|]. intros jj s3 _. unfold gpuasm_tile.
    apply errD_bind.
    - apply errD_forS; [lia|]. intros k s4 _. do 8 (apply errD_bind; [apply errD_load|intros ?]). destruct fma as [f|]; [|done].
      apply errD_forS; [lia|]. intros r1 s5 _. apply errD_forS; [lia|]. intros c s6 _. do 3 (apply errD_bind; [apply errD_gget|intros ?]). apply errD_gset.
    - intros ch. apply errD_forS; [lia|]. intros l s4 _. apply errD_forS; [lia|]. intros r1 s5 _. apply errD_forS; [lia|]. intros c s6 _.
      apply errD_bind; [apply errD_gget|]. intros x. apply errD_add_to.
  Qed.
  Lemma gpuasm_fails i j : i ∈ rng 0 n b -> j ∈ rng 0 n b -> noret (gpuasm_block fma junk offAA offBB A B n b kc i j) ->
    always_ub (multGPUASM_with b kc fma junk offAA offBB A B C n).
  Proof.
    intros Hi Hj Hn. apply fail_with_C.
    - apply (noret_parL _ _ i); [done|]. by apply (noret_forS _ _ _ _ _ j).
    - apply errD_parL. intros i' _. apply errD_forS; [lia|]. intros j' _ _. apply errD_gpuasm.
  Qed.
  Theorem multGPUASM_other : ~ (b | n) -> length A < n * n + n -> always_ub (multGPUASM_with b kc fma junk offAA offBB A B C n).
  Proof.
    intros Hn HA. destruct (not_multiple b n Hb Hn) as (i&Hi&Hin).
    apply (gpuasm_fails i 0); [done|apply block0; lia|].
    destruct (last_chunk kc n Hkc ltac:(lia)) as (kB&k&Hk1&Hk2&Hk3). unfold gpuasm_block. apply noret_bind_r. intros r.
    apply noret_bind_l, (noret_forS _ _ _ _ _ kB); [done|done|]. intros s. unfold gpuasm_chunk. apply noret_bind_l.
    apply (noret_copy_rows A n i kB b kc _ k); [lia|done|done|done].
  Qed.
  Theorem multGPUASM_misaligned : 0 < n -> offAA mod 4 <> 0 \/ offBB mod 4 <> 0 ->
    always_ub (multGPUASM_with b kc fma junk offAA offBB A B C n).
  Proof.
    intros Hn Hoff. apply (gpuasm_fails 0 0); [by apply block0|by apply block0|].
    unfold gpuasm_block. apply noret_bind_r. intros r. apply noret_bind_l, (noret_forS _ _ _ _ _ 0); [done|by apply block0|]. intros s.
    unfold gpuasm_chunk. do 2 (apply noret_bind_r; intros ?).
    apply (noret_forS _ _ _ _ _ 0); [lia|apply block0; lia|]. intros s2. apply (noret_forS _ _ _ _ _ 0); [lia|apply block0; lia|]. intros s3.
    unfold gpuasm_tile. apply noret_bind_l, (noret_forS _ _ _ _ _ 0); [lia|apply block0; lia|]. intros s4. destruct Hoff as [Ho|Ho].
    - apply noret_bind_l, noret_misaligned. by rewrite Nat.add_0_r.
    - do 4 (apply noret_bind_r; intros ?). apply noret_bind_l, noret_misaligned. by rewrite Nat.add_0_r.
  Qed.
End GPUASM.

(** Exact arithmetic *)
Section Exactly.
  Context {T : Type} `{NumOps T}.
  Lemma fma_dot_exact fma (x y : nat -> T) ks : fma_exact fma -> fma_dot fma x y ks = dot (fun k => nmul (x k) (y k)) ks.
  Proof. intros Hf. apply foldl_ext_in. intros v k _. apply Hf. Qed.
  Lemma fma_entry_exact fma n (A B : list T) i j : fma_exact fma -> fma_entry fma n A B i j = prod_entry n A B i j.
  Proof. intros Hf. by apply fma_dot_exact. Qed.
  Lemma no_fma_exact : fma_exact (no_fma (T := T)) <-> forall x y z : T, nadd (nmul x y) z = nadd z (nmul x y).
  Proof. done. Qed.
  Lemma fma_lanes_exact `{!Exact T} fma kc n (A B : list T) i j : fma_exact fma -> 0 < kc -> (4 | kc) -> (kc | n) ->
    fma_lanes_entry fma kc n A B i j = prod_t_entry n A B i j.
  Proof.
    intros Hf Hk H4 Hn. transitivity (lanes_entry kc n A B i j); [|by apply dot_lanes_exact].
    unfold fma_lanes_entry, lanes_entry, dot_lanes. apply foldl_ext_in. intros v q _. apply foldl_ext_in. intros w l _. f_equal.
    by apply fma_dot_exact.
  Qed.
  Lemma olanes_none `{!UnitLaws T} kc n (A B : list T) i j : olanes_entry kc None A B n i j = nzero.
  Proof.
    unfold olanes_entry. cbn [olane seq foldl].
    induction (seq 0 (n / kc)) as [|q L IH]; [done|]. cbn [foldl]. rewrite !unit_add_r. exact IH.
  Qed.
End Exactly.
