(** Proofs about multIntrinLoop. *)
From Verif Require Import SpecExp2 Tools Tools2 Tools3 MExp2 PExp PExpBlocks PExp2.

(** ** Accumulation over chunks of k, shared by the kernels *)
Section Chunks.
  Context {T : Type} `{NumOps T}.
  Lemma fold_by (g : nat -> T -> T) kc n z : 0 < kc -> (kc | n) ->
    foldl (fun v kB => foldl (fun v k => g (kB + k) v) v (seq 0 kc)) z (rng 0 n kc) = foldl (fun v k => g k v) z (seq 0 n).
  Proof.
    intros Hkc Hn. transitivity (fold_upd (g <$> seq 0 n) z); [|apply fold_upd_fmap]. rewrite <- (seq_by kc n g Hkc Hn). generalize (rng 0 n kc). intros L. revert z.
    induction L as [|x L IH]; intros z; [done|]. cbn [foldl]. rewrite bind_cons.
    unfold fold_upd. rewrite foldl_app. fold (fold_upd ((fun kk => g (x + kk)) <$> seq 0 kc) z). rewrite fold_upd_fmap. apply IH.
  Qed.
  Definition tiles_us (bx by_ h w : nat) (F : nat -> nat -> T -> T) : list (nat * (T -> T)) :=
    rng 0 bx h ≫= fun ii => rng 0 by_ w ≫= fun jj => rect_us by_ ii h jj w F.
  Lemma chunks_lookup bx by_ h w kc n (g : nat -> nat -> nat -> T -> T) z I J :
    0 < h -> 0 < w -> (h | bx) -> (w | by_) -> 0 < kc -> (kc | n) -> I < bx -> J < by_ ->
    applyL (rng 0 n kc ≫= fun kB => tiles_us bx by_ h w (fun I J v => foldl (fun v k => g I J (kB + k) v) v (seq 0 kc)))
      (replicate (bx * by_) z) !! (I * by_ + J) = Some (foldl (fun v k => g I J k v) z (seq 0 n)).
  Proof.
    intros Hh Hw Hdh Hdw Hkc Hn HI HJ. rewrite applyL_lookup, lookup_replicate_2 by (by apply mixed_lt). cbn. f_equal.
    rewrite contrib_bind.
    rewrite (bind_ext _ (fun kB => [fun v => foldl (fun v k => g I J (kB + k) v) v (seq 0 kc)])).
    - rewrite bind_ret_fmap, fold_upd_fmap. by apply (fold_by (g I J)).
    - intros kB _. by apply contrib_tiles.
  Qed.
End Chunks.

(** ** Writing a block with stream stores *)
Section Stream.
  Context {T : Type} `{NumOps T}.
  Context (n bx by_ offC : nat) (C : list T).
  Context (Hbx : 0 < bx) (Hby : 0 < by_) (Hdx : (bx | n)) (Hdy : (by_ | n)) (HC : length C = n * n).
  Context (H4 : (4 | by_)) (Hoff : offC mod 4 = 0).
  Lemma n4 : (4 | n).
  Proof. by apply (Nat.divide_trans _ by_). Qed.

  Lemma stream_does i j (f : nat -> nat -> T) (r : list T) : j ∈ rng 0 n by_ -> holds_block bx by_ i j f r ->
    does (stream_block offC n i j bx by_ r) (block_us n bx by_ i j f).
  Proof.
    intros Hj Hr. unfold stream_block, block_us. rewrite <- (rng_0_1 bx).
    apply does_forP; [lia|]. intros ii Hii%rng_bounds.
    rewrite bind_ret_fmap.
    match goal with |- does _ (?g <$> seq 0 by_) => rewrite <- (seq_by 4 by_ g) by (lia || exact H4) end.
    apply does_forP; [lia|]. intros jj Hjj.
    pose proof (rng_multiple by_ 4 jj ltac:(lia) Hjj) as Hjj4. pose proof (corner_row by_ 4 ltac:(lia) H4 jj 3 Hjj ltac:(lia)).
    rewrite (load_ok 0 r _ (fun l => f (i + ii) (j + (jj + l)))).
    - cbn [pbind]. unfold stream_pd. rewrite aligned_ok.
      + cbn [vec4 fmap list_fmap seq].
        rewrite <- !Nat.add_assoc. rewrite <- (Nat.add_0_r jj) at 1.
        apply (does_bind _ _ [_] _ (does_wr _ _ _)), (does_bind _ _ [_] _ (does_wr _ _ _)), (does_bind _ _ [_] _ (does_wr _ _ _)), does_wr.
      + apply aligned4; [done|]. pose proof n4 as Hn4. apply Nat.divide_add_r; [by apply Nat.divide_mul_r|]. apply Nat.divide_add_r; [|exact Hjj4].
        apply (Nat.divide_trans _ by_); [exact H4|]. by apply (rng_multiple n by_ j).
    - apply (aligned4 0); [done|]. apply Nat.divide_add_r; [by apply Nat.divide_mul_r|exact Hjj4].
    - intros l Hl. rewrite <- Nat.add_assoc. apply Hr; lia.
  Qed.
  Lemma stream_acc i j (r : list T) : Conc.acc_in (fun _ => False) (in_block n bx by_ i j) (stream_block offC n i j bx by_ r).
  Proof.
    unfold stream_block. apply acc_in_forS. intros ii _ Hii _.
    unfold forP. rewrite forS_step by lia. apply acc_in_foldP. intros jj _ Hjj.
    pose proof (corner_row by_ 4 ltac:(lia) H4 jj 3 Hjj ltac:(lia)).
    apply acc_in_bind.
    - unfold load_pd. destruct (negb _); [done|]. repeat (apply acc_in_bind; [apply acc_in_vget|intros ?]). done.
    - intros [[[x0 x1] x2] x3]. unfold stream_pd. destruct (negb _); [done|].
      apply acc_in_bind; [apply acc_in_wr; exists ii, jj; split_and!; [lia|lia|done]|intros _].
      apply acc_in_bind; [apply acc_in_wr; exists ii, (jj + 1); split_and!; [lia|lia|f_equal; lia]|intros _].
      apply acc_in_bind; [apply acc_in_wr; exists ii, (jj + 2); split_and!; [lia|lia|f_equal; lia]|intros _].
      apply acc_in_wr; exists ii, (jj + 3); split_and!; [lia|lia|f_equal; lia].
  Qed.
  Lemma stream_drf i j r : drf (stream_block (T := T) offC n i j bx by_ r).
  Proof.
    unfold stream_block. apply drf_forS. intros ii _ _ _. apply drf_forS. intros jj _ _ _.
    apply drf_bind.
    - unfold load_pd. destruct (negb _); [done|]. repeat (apply drf_bind; [apply drf_vget|intros ?]). done.
    - intros [[[x0 x1] x2] x3]. unfold stream_pd. destruct (negb _); [done|].
      repeat (apply drf_bind; [apply drf_wr|intros ?]). apply drf_wr.
  Qed.
  Theorem streamed_par (body : nat -> nat -> prog T unit) (f : nat -> nat -> T) :
    (forall i j, corner n bx by_ i j -> exists r, body i j = stream_block offC n i j bx by_ r /\ holds_block bx by_ i j f r) ->
    always (with_C C (parL (rng 0 n bx) (fun i => forP 0 n by_ (body i)))) (is_matrix n f).
  Proof.
    intros Hbody.
    apply (blocks_par n bx by_ C Hbx Hby Hdx Hdy HC body (fun i j => block_us n bx by_ i j f) (fun i j _ => f i j)).
    - intros i j Hc. destruct (Hbody i j Hc) as (r&->&Hr). apply stream_does; [apply Hc|done].
    - intros i j u _. by apply (block_us_in n bx by_ C).
    - intros i j ii jj v Hc Hii Hjj. by apply (block_us_contrib n bx by_ C Hbx Hby Hdy HC).
    - intros i j Hc. destruct (Hbody i j Hc) as (r&->&_). apply stream_acc.
    - intros i j Hc. destruct (Hbody i j Hc) as (r&->&_). apply stream_drf.
  Qed.
End Stream.

(** ** The sixteen registers *)
Section Regs.
  Context {T : Type} `{NumOps T}.
  Definition regs_us {E} (f : nat -> nat -> E -> E) : list (nat * (E -> E)) :=
    rng 0 16 4 ≫= fun jjj => seq 0 4 ≫= fun iii => [(jjj * 1 + iii, f jjj iii)].
  Lemma contrib_regs {E} (f : nat -> nat -> E -> E) jjj iii : jjj ∈ rng 0 16 4 -> iii < 4 ->
    contrib (jjj * 1 + iii) (regs_us f) = [f jjj iii].
  Proof.
    intros Hj Hi. unfold regs_us. rewrite contrib_bind, (bind_select _ _ jjj); [|by apply NoDup_rng; lia|done|].
    - rewrite contrib_bind, (bind_select _ _ iii); [apply contrib_single_eq|apply NoDup_seq|apply elem_of_seq; lia|].
      intros x _ Hne. apply contrib_single_ne. lia.
    - intros x Hx Hne. apply contrib_none. intros u (y&->%elem_of_list_singleton&Hy%elem_of_seq)%elem_of_list_bind. cbn [fst].
      apply elem_of_rng in Hj as (q&->&_); [|lia]. apply elem_of_rng in Hx as (q'&->&_); [|lia]. lia.
  Qed.
  Lemma reg_lt jjj iii : jjj ∈ rng 0 16 4 -> iii < 4 -> jjj * 1 + iii < 16.
  Proof. intros Hj Hi. apply elem_of_rng in Hj as (q&->&Hq); [|lia]. lia. Qed.
End Regs.

(** ** multIntrinLoop *)
Section Intrin.
  Context {T : Type} `{NumOps T}.
  Context (bx by_ kc : nat) (fma : T -> T -> T -> T) (junk : T) (offA offB offC : nat) (A B C : list T) (n : nat).
  Context (Hbx : 0 < bx) (Hby : 0 < by_) (Hkc : 0 < kc).

  Section Tile.
    Context (a b : nat -> nat -> T) (AA BB : list T) (ii jj : nat).
    Context (Hx4 : (4 | bx)) (Hy16 : (16 | by_)).
    Context (HAA : forall I k, I < bx -> k < kc -> AA !! (I * kc + k) = Some (a I k)).
    Context (HBB : forall k J, k < kc -> J < by_ -> BB !! (k * by_ + J) = Some (b k J)).
    Context (Hii : ii ∈ rng 0 bx 4) (Hjj : jj ∈ rng 0 by_ 16).
    Lemma tile_row iii : iii < 4 -> ii + iii < bx.
    Proof. apply (corner_row bx 4 ltac:(lia) Hx4). exact Hii. Qed.
    Lemma tile_col c : c < 16 -> jj + c < by_.
    Proof. apply (corner_row by_ 16 ltac:(lia) Hy16). exact Hjj. Qed.
    Lemma y4 : (4 | by_).
    Proof. apply (Nat.divide_trans _ 16); [exists 4; lia|exact Hy16]. Qed.
    Lemma jj4 : (4 | jj).
    Proof. apply (Nat.divide_trans _ 16); [exists 4; lia|]. apply (rng_multiple by_ 16); [lia|exact Hjj]. Qed.
    Lemma tile_aligned row jjj : jjj ∈ rng 0 16 4 -> (0 + (row * by_ + jj + jjj)) mod 4 = 0.
    Proof.
      intros Hj. pose proof y4. pose proof jj4. apply (aligned4 0); [done|]. apply Nat.divide_add_r; [apply Nat.divide_add_r; [by apply Nat.divide_mul_r|assumption]|].
      apply (rng_multiple 16 4); [lia|done].
    Qed.
    Lemma tile_jjj jjj l : jjj ∈ rng 0 16 4 -> l < 4 -> jjj + l < 16.
    Proof. intros Hj Hl. apply elem_of_rng in Hj as (q&->&Hq); [|lia]. lia. Qed.
    Lemma intrin_load_ok (s : list T) (S : nat -> nat -> T) r0 : length r0 = 16 ->
      (forall I J, ii <= I < ii + 4 -> jj <= J < jj + 16 -> s !! (I * by_ + J) = Some (S I J)) ->
      exists R, intrin_load by_ ii jj s r0 = Ret R /\ length R = 16 /\
        forall jjj iii, jjj ∈ rng 0 16 4 -> iii < 4 -> R !! (jjj * 1 + iii) = Some (vec4 (fun l => S (ii + iii) (jj + (jjj + l)))).
    Proof.
      intros Hr0 HS. set (f := fun jjj iii (_ : m256 (T := T)) => vec4 (fun l => S (ii + iii) (jj + (jjj + l)))).
      exists (applyL (regs_us f) r0). split_and!.
      - unfold intrin_load, regs_us. apply (forS_applyG 16); [lia|done|]. intros jjj r1 Hj Hr1.
        apply (forS1_applyG 16); [done|]. intros iii r2 Hi Hr2.
        rewrite (load_ok 0 s _ (fun l => S (ii + iii) (jj + (jjj + l)))).
        + cbn [pbind]. apply gset_ok. rewrite Hr2. by apply reg_lt.
        + by apply tile_aligned.
        + intros l Hl. rewrite <- !Nat.add_assoc. pose proof (tile_jjj jjj l Hj Hl). apply HS; lia.
      - by rewrite length_applyL.
      - intros jjj iii Hj Hi. rewrite applyL_lookup, contrib_regs by done.
        destruct (lookup_lt_is_Some_2 r0 (jjj * 1 + iii)) as [x ->]; [|done]. rewrite Hr0. by apply reg_lt.
    Qed.
    Lemma intrin_A_ok k : k < kc -> exists R, intrin_A junk AA kc ii k = Ret R /\
      forall iii, iii < 4 -> R !! iii = Some (vec4 (fun _ => a (ii + iii) k)).
    Proof.
      intros Hk. exists (applyL (seq 0 4 ≫= fun iii => [(iii, fun _ => vec4 (fun _ => a (ii + iii) k))]) (replicate 4 (set1_pd junk))). split.
      - unfold intrin_A. apply (forS1_applyG 4); [done|]. intros iii s Hi Hs. rewrite Nat.add_0_r.
        rewrite (vget_lookup AA _ _ (HAA (ii + iii) k (tile_row iii Hi) Hk)). cbn [pbind]. apply gset_ok. lia.
      - intros iii Hi. rewrite applyL_lookup, lookup_replicate_2, contrib_bind by done.
        rewrite (bind_select _ _ iii); [by rewrite contrib_single_eq|apply NoDup_seq|apply elem_of_seq; lia|].
        intros x _ Hne. by apply contrib_single_ne.
    Qed.
    Lemma intrin_k_ok R (c0 : nat -> nat -> nat -> T) : length R = 16 ->
      (forall jjj iii, jjj ∈ rng 0 16 4 -> iii < 4 -> R !! (jjj * 1 + iii) = Some (vec4 (c0 jjj iii))) ->
      exists R', intrin_k fma junk AA BB by_ kc ii jj R = Ret R' /\
        forall jjj iii, jjj ∈ rng 0 16 4 -> iii < 4 -> R' !! (jjj * 1 + iii) =
          Some (vec4 (fun l => foldl (fun v k => fma (a (ii + iii) k) (b k (jj + (jjj + l))) v) (c0 jjj iii l) (seq 0 kc))).
    Proof.
      intros HR Hc. set (us := fun k => regs_us (fun jjj iii => fmadd_pd fma (vec4 (fun _ => a (ii + iii) k)) (vec4 (fun l => b k (jj + (jjj + l)))))).
      exists (applyL (seq 0 kc ≫= us) R). split.
      - unfold intrin_k. apply (forS1_applyG 16); [done|]. intros k r1 Hk Hr1.
        destruct (intrin_A_ok k Hk) as (Ar&->&HAr). cbn [pbind]. unfold us, regs_us.
        apply (forS_applyG 16); [lia|done|]. intros jjj r2 Hj Hr2.
        rewrite (load_ok 0 BB _ (fun l => b k (jj + (jjj + l)))).
        + cbn [pbind]. apply (forS1_applyG 16); [done|]. intros iii r3 Hi Hr3. rewrite (gget_ok _ _ _ (HAr iii Hi)). cbn [pbind].
          apply (gmod_ok r3 (jjj * 1 + iii)). rewrite Hr3. by apply reg_lt.
        + replace ((k + 0) * by_ + (jj + jjj)) with (k * by_ + jj + jjj) by lia. by apply tile_aligned.
        + intros l Hl. rewrite Nat.add_0_r, <- !Nat.add_assoc. apply HBB; [done|]. apply tile_col. by apply tile_jjj.
      - intros jjj iii Hj Hi. rewrite applyL_lookup, Hc by done. cbn [fmap option_fmap option_map]. f_equal.
        rewrite contrib_bind.
        rewrite (bind_ext _ (fun k => [fmadd_pd fma (vec4 (fun _ => a (ii + iii) k)) (vec4 (fun l => b k (jj + (jjj + l))))])).
        + rewrite bind_ret_fmap, fold_upd_fmap'. apply (foldl_vec fma (fun k _ => a (ii + iii) k) (fun k l => b k (jj + (jjj + l)))).
        + intros k _. unfold us. by rewrite contrib_regs.
    Qed.
    Lemma intrin_store_ok R (s : list T) (G : nat -> nat -> T) : length s = bx * by_ ->
      (forall jjj iii, jjj ∈ rng 0 16 4 -> iii < 4 -> R !! (jjj * 1 + iii) = Some (vec4 (fun l => G (ii + iii) (jj + (jjj + l))))) ->
      intrin_store by_ ii jj R s = Ret (applyL (rect_us by_ ii 4 jj 16 (fun I J _ => G I J)) s).
    Proof.
      intros Hs HR. unfold intrin_store, rect_us.
      apply (forS1_applyG (bx * by_)); [done|]. intros iii s1 Hi Hs1.
      rewrite (forS_applyG (bx * by_) _ _ _ _ (fun jjj => four ((ii + iii) * by_ + jj + jjj) (fun l => G (ii + iii) (jj + (jjj + l))))); [|lia|done|].
      - f_equal. f_equal. rewrite (four_row 16 ((ii + iii) * by_ + jj) (fun c => G (ii + iii) (jj + c))) by (exists 4; lia).
        apply fmap_seq_ext. intros c _. by rewrite Nat.add_assoc.
      - intros jjj s2 Hj Hs2. rewrite (gget_ok _ _ _ (HR jjj iii Hj Hi)). cbn [pbind]. apply store_ok; [by apply tile_aligned|].
        rewrite Hs2. pose proof (mixed_lt by_ bx (ii + iii) (jj + (jjj + 3)) (tile_row iii Hi) (tile_col _ (tile_jjj jjj 3 Hj ltac:(lia)))). lia.
    Qed.
    Lemma intrin_tile_ok (s : list T) : length s = bx * by_ ->
      intrin_tile fma junk AA BB by_ kc ii jj s =
        Ret (applyL (rect_us by_ ii 4 jj 16 (fun I J v => foldl (fun v k => fma (a I k) (b k J) v) v (seq 0 kc))) s).
    Proof.
      intros Hs. set (S := fun I J => default nzero (s !! (I * by_ + J))).
      assert (forall I J, ii <= I < ii + 4 -> jj <= J < jj + 16 -> s !! (I * by_ + J) = Some (S I J)) as HS.
      { intros I J HI HJ. unfold S. destruct (lookup_lt_is_Some_2 s (I * by_ + J)) as [x ->]; [|done]. rewrite Hs.
        pose proof (tile_row (I - ii) ltac:(lia)). pose proof (tile_col (J - jj) ltac:(lia)). apply mixed_lt; lia. }
      unfold intrin_tile. destruct (intrin_load_ok s S (replicate 16 (set1_pd junk)) eq_refl HS) as (R&->&HR1&HR). cbn [pbind].
      destruct (intrin_k_ok R (fun jjj iii l => S (ii + iii) (jj + (jjj + l))) HR1 HR) as (R'&->&HR'). cbn [pbind].
      rewrite (intrin_store_ok R' s (fun I J => foldl (fun v k => fma (a I k) (b k J) v) (S I J) (seq 0 kc)) Hs HR').
      f_equal. pose proof (tile_row 3 ltac:(lia)). pose proof (tile_col 15 ltac:(lia)).
      apply (rect_const by_ ii 4 jj 16 (fun I J v => foldl (fun v k => fma (a I k) (b k J) v) v (seq 0 kc)) S s bx); [done|lia|lia|exact HS].
    Qed.
  End Tile.

  Section Multiple.
    Context (Hxn : (bx | n)) (Hyn : (by_ | n)) (Hkn : (kc | n)) (Hx4 : (4 | bx)) (Hy16 : (16 | by_)) (Hk4 : (4 | kc)).
    Context (HA : n * n <= length A) (HB : n * n <= length B) (HC : length C = n * n).
    Context (HoA : offA mod 4 = 0) (HoB : offB mod 4 = 0) (HoC : offC mod 4 = 0).
    Lemma intrin_chunk_ok i j kB s : corner n bx by_ i j -> kB ∈ rng 0 n kc -> length s = bx * by_ ->
      intrin_chunk fma junk offA offB A B n bx by_ kc i j kB s =
        Ret (applyL (tiles_us bx by_ 4 16 (fun I J v => foldl (fun v k => fma (ent n A (i + I) (kB + k)) (ent n B (kB + k) (j + J)) v) v (seq 0 kc))) s).
    Proof.
      intros [Hi Hj] HkB Hs. unfold intrin_chunk.
      assert (4 | by_) as Hy4 by (apply (Nat.divide_trans _ 16); [exists 4; lia|exact Hy16]).
      assert (4 | n) as Hn4 by (by apply (Nat.divide_trans _ kc)).
      assert (forall k, k < kc -> kB + k < n) as HK by (intros k Hk'; by apply (corner_row n kc Hkc Hkn)).
      assert (forall x, x < by_ -> j + x < n) as HJ by (intros k Hk'; by apply (corner_row n by_ Hby Hyn)).
      assert (forall x, x < bx -> i + x < n) as HI by (intros k Hk'; by apply (corner_row n bx Hbx Hxn)).
      assert (4 | kB) as HkB4 by (apply (Nat.divide_trans _ kc); [exact Hk4|by apply (rng_multiple n kc)]).
      assert (4 | j) as Hj4 by (apply (Nat.divide_trans _ by_); [exact Hy4|by apply (rng_multiple n by_)]).
      destruct (intrin_copy_ok offA A n i kB bx kc (replicate (bx * kc) junk) HoA Hn4 Hk4 HkB4 HA) as (AA&->&_&HAA); [by rewrite replicate_length|done|done|].
      destruct (intrin_copy_ok offB B n kB j kc by_ (replicate (by_ * kc) junk) HoB Hn4 Hy4 Hj4 HB) as (BB&->&_&HBB); [rewrite replicate_length; lia|done|done|].
      cbn [pbind]. unfold tiles_us. apply (forS_applyG (bx * by_)); [lia|done|]. intros ii s1 Hii Hs1.
      apply (forS_applyG (bx * by_)); [lia|done|]. intros jj s2 Hjj Hs2.
      apply (intrin_tile_ok (fun I k => ent n A (i + I) (kB + k)) (fun k J => ent n B (kB + k) (j + J))); done.
    Qed.
    Theorem multIntrinLoop_correct :
      always (multIntrinLoop_with bx by_ kc fma junk offA offB offC A B C n) (is_matrix n (fma_entry fma n A B)).
    Proof.
      assert (4 | by_) as Hy4 by (apply (Nat.divide_trans _ 16); [exists 4; lia|exact Hy16]).
      unfold multIntrinLoop_with.
      apply (streamed_par n bx by_ offC C Hbx Hby Hxn Hyn HC Hy4 HoC (intrin_block fma junk offA offB offC A B n bx by_ kc)).
      intros i j Hc. unfold intrin_block. rewrite intrin_zero_ok by (exact Hy4 || by rewrite replicate_length). cbn [pbind].
      rewrite (forS_applyG (bx * by_) _ _ _ _ (fun kB => tiles_us bx by_ 4 16 (fun I J v => foldl (fun v k => fma (ent n A (i + I) (kB + k)) (ent n B (kB + k) (j + J)) v) v (seq 0 kc))));
        [|done|by rewrite replicate_length|intros k r Hk Hr; by apply intrin_chunk_ok].
      eexists. split; [done|]. intros ii jj Hii Hjj.
      rewrite (chunks_lookup bx by_ 4 16 kc n (fun I J k v => fma (ent n A (i + I) k) (ent n B k (j + J)) v) nzero ii jj); try done; lia.
    Qed.
  End Multiple.

  Lemma errD_intrin_copy off (M : list T) row col h w s : errD ubE (intrin_copy off M n row col h w s).
  Proof.
    apply errD_forS; [lia|]. intros ii s1 _. apply errD_forS; [lia|]. intros k s2 _.
    apply errD_bind; [apply errD_load|]. intros x. apply errD_store.
  Qed.
  Lemma errD_intrin_tile AA BB ii jj s : errD ubE (intrin_tile fma junk AA BB by_ kc ii jj s).
  Proof.
    unfold intrin_tile. apply errD_bind; [|intros reg; apply errD_bind; [|intros reg']].
    - apply errD_forS; [lia|]. intros jjj s1 _. apply errD_forS; [lia|]. intros iii s2 _.
      apply errD_bind; [apply errD_load|]. intros x. apply errD_gset.
    - apply errD_forS; [lia|]. intros k s1 _. apply errD_bind.
      + apply errD_forS; [lia|]. intros iii s2 _. apply errD_bind; [by apply errD_vget|]. intros x. apply errD_gset.
      + intros Ar. apply errD_forS; [lia|]. intros jjj s2 _. apply errD_bind; [apply errD_load|]. intros Br.
        apply errD_forS; [lia|]. intros iii s3 _. do 2 (apply errD_bind; [apply errD_gget|intros ?]). apply errD_gset.
    - apply errD_forS; [lia|]. intros iii s1 _. apply errD_forS; [lia|]. intros jjj s2 _.
      apply errD_bind; [apply errD_gget|]. intros x. apply errD_store.
  Qed.
  Lemma errD_intrin i j : errD ubE (intrin_block fma junk offA offB offC A B n bx by_ kc i j).
  Proof.
    unfold intrin_block. apply errD_bind; [|intros r; apply errD_bind; [|intros r']].
    - apply errD_forS; [lia|]. intros ii s1 _. apply errD_forS; [lia|]. intros jj s2 _. apply errD_store.
    - apply errD_forS; [lia|]. intros kB s1 _. unfold intrin_chunk.
      do 2 (apply errD_bind; [apply errD_intrin_copy|intros ?]). apply errD_forS; [lia|]. intros ii s2 _.
      apply errD_forS; [lia|]. intros jj s3 _. apply errD_intrin_tile.
    - apply errD_forS; [lia|]. intros ii s1 _. apply errD_forS; [lia|]. intros jj s2 _.
      apply errD_bind; [apply errD_load|]. intros x. apply errD_stream.
  Qed.
  Lemma intrin_fails i j : i ∈ rng 0 n bx -> j ∈ rng 0 n by_ -> noret (intrin_block fma junk offA offB offC A B n bx by_ kc i j) ->
    always_ub (multIntrinLoop_with bx by_ kc fma junk offA offB offC A B C n).
  Proof.
    intros Hi Hj Hn. apply fail_with_C.
    - apply (noret_parL _ _ i); [done|]. by apply (noret_forS _ _ _ _ _ j).
    - apply errD_parL. intros i' _. apply errD_forS; [lia|]. intros j' _ _. apply errD_intrin.
  Qed.
  Lemma first_block b : 0 < b -> 0 < n -> 0 ∈ rng 0 n b.
  Proof. intros Hb Hn. apply elem_of_rng; [done|]. exists 0. lia. Qed.
  Theorem multIntrinLoop_other : (4 | kc) -> ~ (bx | n) -> length A < n * n + n ->
    always_ub (multIntrinLoop_with bx by_ kc fma junk offA offB offC A B C n).
  Proof.
    intros Hk4 Hn HA. destruct (not_multiple bx n Hbx Hn) as (i&Hi&Hin).
    apply (intrin_fails i 0); [done|apply first_block; lia|].
    destruct (last_chunk kc n Hkc ltac:(lia)) as (kB&k&Hk1&Hk2&Hk3). unfold intrin_block. apply noret_bind_r. intros r.
    apply noret_bind_l, (noret_forS _ _ _ _ _ kB); [done|done|]. intros s. unfold intrin_chunk. apply noret_bind_l.
    unfold intrin_copy. apply (noret_forS _ _ _ _ _ (n - i)); [lia|rewrite rng_0_1; apply elem_of_seq; lia|].
    destruct (find_blk kc 4 k ltac:(lia) Hk2) as (k4&d&Hk4'&Hd&Ek).
    intros s1. apply (noret_forS _ _ _ _ _ k4); [lia|done|]. intros s2. apply noret_bind_l, noret_load.
    replace (i + (n - i)) with n by lia. lia.
  Qed.
  Theorem multIntrinLoop_misaligned : 0 < n -> offA mod 4 <> 0 \/ offB mod 4 <> 0 \/ offC mod 4 <> 0 ->
    always_ub (multIntrinLoop_with bx by_ kc fma junk offA offB offC A B C n).
  Proof.
    intros Hn Hoff. apply (intrin_fails 0 0); [by apply first_block|by apply first_block|].
    assert (forall b, 0 < b -> 0 ∈ rng 0 b 4) as H04 by (intros b Hb; apply elem_of_rng; [lia|]; exists 0; lia).
    assert (forall b, 0 < b -> 0 ∈ rng 0 b 1) as H01 by (intros b Hb; apply elem_of_rng; [lia|]; exists 0; lia).
    assert (forall off M col row h w s, off mod 4 <> 0 -> 0 < h -> 0 < w -> (row + 0) * n + (col + 0) = 0 -> noret (intrin_copy (T := T) off M n row col h w s)) as Hcopy.
    { intros off M col row h w s Ho Hh Hw E. apply (noret_forS _ _ _ _ _ 0); [lia|by apply H01|]. intros s1.
      apply (noret_forS _ _ _ _ _ 0); [lia|by apply H04|]. intros s2. apply noret_bind_l, noret_misaligned. by rewrite E, Nat.add_0_r. }
    unfold intrin_block. apply noret_bind_r. intros r. destruct Hoff as [Ho|[Ho|Ho]].
    - apply noret_bind_l, (noret_forS _ _ _ _ _ 0); [done|by apply first_block|]. intros s.
      apply noret_bind_l. by apply Hcopy.
    - apply noret_bind_l, (noret_forS _ _ _ _ _ 0); [done|by apply first_block|]. intros s.
      apply noret_bind_r. intros AA. apply noret_bind_l. by apply Hcopy.
    - apply noret_bind_r. intros r'. apply (noret_forS _ _ _ _ _ 0); [lia|by apply H01|]. intros _.
      apply (noret_forS _ _ _ _ _ 0); [lia|by apply H04|]. intros _. apply noret_bind_r. intros x. unfold stream_pd.
      change ((0 + 0) * n + (0 + 0)) with 0. by rewrite Nat.add_0_r, (proj2 (Nat.eqb_neq _ _)).
  Qed.
End Intrin.
