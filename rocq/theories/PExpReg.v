(** Proofs about multRegister. *)
From Verif Require Import SpecExp2 Tools Tools2 Tools3 MExp2 PExp PExpBlocks PExp2 PExpIntrin.

Lemma foldl_bind {X Y Z} (f : Z -> Y -> Z) (g : X -> list Y) (l : list X) z :
  foldl f z (l ≫= g) = foldl (fun z x => foldl f z (g x)) z l.
Proof. revert z. induction l as [|x l IH]; intros z; [done|]. rewrite bind_cons, foldl_app. apply IH. Qed.
Lemma foldl_fmap' {X Y Z} (f : Z -> Y -> Z) (g : X -> Y) (l : list X) z :
  foldl f z (g <$> l) = foldl (fun z x => f z (g x)) z l.
Proof. revert z. induction l as [|x l IH]; intros z; [done|]. apply IH. Qed.

(** The loop iterations (iii, jjj) that update register p, in order. *)
Definition hits (idx : nat -> nat -> nat) (p : nat) : list (nat * nat) :=
  seq 0 8 ≫= fun iii => seq 0 2 ≫= fun jjj => if decide (idx iii jjj = p) then [(iii, jjj)] else [].
Lemma contrib_hits {E} idx (f : nat -> nat -> E -> E) p :
  contrib p (seq 0 8 ≫= fun iii => seq 0 2 ≫= fun jjj => [(idx iii jjj, f iii jjj)]) = (fun x => f x.1 x.2) <$> hits idx p.
Proof.
  rewrite contrib_bind. unfold hits. rewrite fmap_bind_r. apply bind_ext. intros iii _.
  rewrite contrib_bind, fmap_bind_r. apply bind_ext. intros jjj _.
  destruct (decide (idx iii jjj = p)) as [->|Hne]; [apply contrib_single_eq|by apply contrib_single_ne].
Qed.

Lemma always_mono {T X} (p : prog T X) (Q Q' : X -> Prop) : (forall x, Q x -> Q' x) -> always p Q -> always p Q'.
Proof. intros HQ. apply must_mono. intros a _. apply HQ. Qed.
Lemma block0 n b : 0 < b -> 0 < n -> 0 ∈ rng 0 n b.
Proof. intros Hb Hn. apply elem_of_rng; [done|]. exists 0. lia. Qed.

Section Register.
  Context {T : Type} `{NumOps T}.
  Context (bx by_ kc : nat) (fma : T -> T -> T -> T) (idx : nat -> nat -> nat) (junk : T) (offR offBB : nat) (A B C : list T) (n : nat).
  Context (Hbx : 0 < bx) (Hby : 0 < by_) (Hkc : 0 < kc).

  (** What one pass over k does to cell (I, J). *)
  Definition reg_step (a b : nat -> nat -> T) (I J k : nat) (v : T) : T :=
    foldl (fun v x => fma (a (I / 8 * 8 + x.1) k) (b k (J / 8 * 8 + (x.2 * 4 + J mod 4))) v) v (hits idx (I mod 8 * 2 + J mod 8 / 4)).
  Definition regs_entry (i j : nat) : T :=
    foldl (fun v k => reg_step (ent n A) (ent n B) i j k v) nzero (seq 0 n).

  Section Tile.
    Context (a b : nat -> nat -> T) (AA BB : list T) (ii jj : nat).
    Context (Hx8 : (8 | bx)) (Hy8 : (8 | by_)).
    Context (HAA : forall I k, I < bx -> k < kc -> AA !! (I * kc + k) = Some (a I k)).
    Context (HBB : forall k J, k < kc -> J < by_ -> BB !! (k * by_ + J) = Some (b k J)).
    Context (Hii : ii ∈ rng 0 bx 8) (Hjj : jj ∈ rng 0 by_ 8).
    Context (HoR : offR mod 4 = 0) (HoB : offBB mod 4 = 0).
    Context (Hidx : forall iii jjj, iii < 8 -> jjj < 2 -> idx iii jjj < 16).
    Lemma rtile_row iii : iii < 8 -> ii + iii < bx.
    Proof. apply (corner_row bx 8 ltac:(lia) Hx8). exact Hii. Qed.
    Lemma rtile_col c : c < 8 -> jj + c < by_.
    Proof. apply (corner_row by_ 8 ltac:(lia) Hy8). exact Hjj. Qed.
    Lemma rtile_aligned off row jjj : off mod 4 = 0 -> (off + (row * by_ + jj + jjj * 4)) mod 4 = 0.
    Proof.
      intros Ho. apply aligned4; [done|].
      assert (4 | 8) as H48 by (exists 2; lia).
      assert (4 | by_) by (by apply (Nat.divide_trans _ 8)).
      assert (4 | jj). { apply (Nat.divide_trans _ 8); [done|]. apply (rng_multiple by_ 8); [lia|exact Hjj]. }
      apply Nat.divide_add_r; [apply Nat.divide_add_r; [by apply Nat.divide_mul_r|assumption]|]. exists jjj. lia.
    Qed.
    Lemma register_load_ok (s : list T) (S : nat -> nat -> T) r0 : length r0 = 16 ->
      (forall I J, ii <= I < ii + 8 -> jj <= J < jj + 8 -> s !! (I * by_ + J) = Some (S I J)) ->
      exists R, register_load offR by_ ii jj s r0 = Ret R /\ length R = 16 /\
        forall iii jjj, iii < 8 -> jjj < 2 -> R !! (iii * 2 + jjj) = Some (vec4 (fun l => S (ii + iii) (jj + (jjj * 4 + l)))).
    Proof.
      intros Hr0 HS. exists (applyL (grid_us 8 2 (fun iii jjj _ => vec4 (fun l => S (ii + iii) (jj + (jjj * 4 + l))))) r0). split_and!.
      - unfold register_load, grid_us. apply (forS1_applyG 16); [done|]. intros iii r1 Hi Hr1.
        apply (forS1_applyG 16); [done|]. intros jjj r2 Hj Hr2.
        rewrite (load_ok offR s _ (fun l => S (ii + iii) (jj + (jjj * 4 + l)))).
        + cbn [pbind]. apply gset_ok. lia.
        + by apply rtile_aligned.
        + intros l Hl. rewrite <- !Nat.add_assoc. apply HS; lia.
      - by rewrite length_applyL.
      - intros iii jjj Hi Hj. rewrite grid_lookup by done.
        destruct (lookup_lt_is_Some_2 r0 (iii * 2 + jjj)) as [x ->]; [lia|done].
    Qed.
    Lemma register_k_ok R (c0 : nat -> nat -> nat -> T) : length R = 16 ->
      (forall iii jjj, iii < 8 -> jjj < 2 -> R !! (iii * 2 + jjj) = Some (vec4 (c0 iii jjj))) ->
      exists R', register_k fma idx offBB AA BB by_ kc ii jj R = Ret R' /\
        forall iii jjj, iii < 8 -> jjj < 2 -> R' !! (iii * 2 + jjj) =
          Some (vec4 (fun l => foldl (fun v k =>
            foldl (fun v x => fma (a (ii + x.1) k) (b k (jj + (x.2 * 4 + l))) v) v (hits idx (iii * 2 + jjj))) (c0 iii jjj l) (seq 0 kc))).
    Proof.
      intros HR Hc. set (us := fun k => seq 0 8 ≫= fun iii => seq 0 2 ≫= fun jjj =>
        [(idx iii jjj, fmadd_pd fma (vec4 (fun _ => a (ii + iii) k)) (vec4 (fun l => b k (jj + (jjj * 4 + l)))))]).
      exists (applyL (seq 0 kc ≫= us) R). split.
      - unfold register_k. apply (forS1_applyG 16); [done|]. intros k r1 Hk Hr1.
        apply (forS1_applyG 16); [done|]. intros iii r2 Hi Hr2. rewrite !Nat.add_0_r.
        rewrite (vget_lookup AA _ _ (HAA (ii + iii) k (rtile_row iii Hi) Hk)). cbn [pbind].
        apply (forS1_applyG 16); [done|]. intros jjj r3 Hj Hr3.
        rewrite (load_ok offBB BB _ (fun l => b k (jj + (jjj * 4 + l)))).
        + cbn [pbind]. apply (gmod_ok r3 (idx iii jjj) (fmadd_pd fma (vec4 (fun _ => a (ii + iii) k)) (vec4 (fun l => b k (jj + (jjj * 4 + l)))))).
          rewrite Hr3. by apply Hidx.
        + by apply rtile_aligned.
        + intros l Hl. rewrite <- !Nat.add_assoc. apply HBB; [done|]. apply rtile_col. lia.
      - intros iii jjj Hi Hj. rewrite applyL_lookup, Hc by done. cbn [fmap option_fmap option_map]. f_equal.
        rewrite contrib_bind.
        rewrite (bind_ext _ (fun k => (fun y : nat * (nat * nat) => fmadd_pd fma (vec4 (fun _ => a (ii + y.2.1) y.1)) (vec4 (fun l => b y.1 (jj + (y.2.2 * 4 + l)))))
                              <$> (pair k <$> hits idx (iii * 2 + jjj)))).
        + rewrite <- fmap_bind_r, fold_upd_fmap'.
          rewrite (foldl_vec fma (fun (y : nat * (nat * nat)) _ => a (ii + y.2.1) y.1) (fun (y : nat * (nat * nat)) l => b y.1 (jj + (y.2.2 * 4 + l)))).
          apply vec4_ext. intros l _. rewrite foldl_bind.
          generalize (c0 iii jjj l). induction (seq 0 kc) as [|k L IH]; intros z; [done|]. cbn [foldl].
          rewrite foldl_fmap'. apply IH.
        + intros k _. unfold us. rewrite contrib_hits. by rewrite <- list_fmap_compose.
    Qed.
    Lemma four_cols base (g : nat -> T) : (seq 0 2 ≫= fun jjj => four (base + jjj * 4) (fun l => g (jjj * 4 + l))) = (fun c => (base + c, fun _ => g c)) <$> seq 0 8.
    Proof.
      rewrite <- (four_row 8 base g) by (exists 2; lia).
      change (rng 0 8 4) with ((fun q => q * 4) <$> seq 0 2). by rewrite bind_fmap_l.
    Qed.
    Lemma register_store_ok R (s : list T) (G : nat -> nat -> T) : length s = bx * by_ ->
      (forall iii jjj, iii < 8 -> jjj < 2 -> R !! (iii * 2 + jjj) = Some (vec4 (fun l => G (ii + iii) (jj + (jjj * 4 + l))))) ->
      register_store offR by_ ii jj R s = Ret (applyL (rect_us by_ ii 8 jj 8 (fun I J _ => G I J)) s).
    Proof.
      intros Hs HR. unfold register_store, rect_us.
      apply (forS1_applyG (bx * by_)); [done|]. intros iii s1 Hi Hs1.
      rewrite (forS1_applyG (bx * by_) _ _ (fun jjj => four ((ii + iii) * by_ + jj + jjj * 4) (fun l => G (ii + iii) (jj + (jjj * 4 + l))))); [|done|].
      - f_equal. f_equal. rewrite (four_cols ((ii + iii) * by_ + jj) (fun c => G (ii + iii) (jj + c))).
        apply fmap_seq_ext. intros c _. by rewrite Nat.add_assoc.
      - intros jjj s2 Hj Hs2. rewrite (gget_ok _ _ _ (HR iii jjj Hi Hj)). cbn [pbind]. apply store_ok; [by apply rtile_aligned|].
        rewrite Hs2. pose proof (mixed_lt by_ bx (ii + iii) (jj + (jjj * 4 + 3)) (rtile_row iii Hi) (rtile_col (jjj * 4 + 3) ltac:(lia))). lia.
    Qed.
    Lemma tile_coord x y l : y < 8 -> l < 4 -> forall z, z * 4 + l = y -> (x * 8 + y) / 8 * 8 = x * 8 /\ (x * 8 + y) mod 8 = y /\ (x * 8 + y) mod 8 / 4 = z /\ (x * 8 + y) mod 4 = l.
    Proof.
      intros Hy Hl z Ez. assert ((x * 8 + y) / 8 = x) as E1.
      { rewrite Nat.div_add_l by lia. rewrite (Nat.div_small y) by lia. lia. }
      assert ((x * 8 + y) mod 8 = y) as E2. { rewrite Nat.add_comm, Nat.mod_add by lia. by apply Nat.mod_small. }
      rewrite E1, E2. split_and!; [done|done| |].
      - subst y. rewrite Nat.div_add_l by lia. rewrite (Nat.div_small l) by lia. lia.
      - replace (x * 8 + y) with (l + (x * 2 + z) * 4) by lia. rewrite Nat.mod_add by lia. by apply Nat.mod_small.
    Qed.
    Lemma register_tile_ok (g : nat -> nat -> nat -> T -> T) (s : list T) :
      (forall I J k v, g I J k v = reg_step a b I J k v) -> length s = bx * by_ ->
      register_tile fma idx junk offR offBB AA BB by_ kc ii jj s =
        Ret (applyL (rect_us by_ ii 8 jj 8 (fun I J v => foldl (fun v k => g I J k v) v (seq 0 kc))) s).
    Proof.
      intros Hg Hs. set (S := fun I J => default nzero (s !! (I * by_ + J))).
      assert (forall I J, ii <= I < ii + 8 -> jj <= J < jj + 8 -> s !! (I * by_ + J) = Some (S I J)) as HS.
      { intros I J HI HJ. unfold S. destruct (lookup_lt_is_Some_2 s (I * by_ + J)) as [x ->]; [|done]. rewrite Hs.
        pose proof (rtile_row (I - ii) ltac:(lia)). pose proof (rtile_col (J - jj) ltac:(lia)). apply mixed_lt; lia. }
      unfold register_tile. destruct (register_load_ok s S (replicate 16 (set1_pd junk)) eq_refl HS) as (R&->&HR1&HR). cbn [pbind].
      destruct (register_k_ok R (fun iii jjj l => S (ii + iii) (jj + (jjj * 4 + l))) HR1 HR) as (R'&->&HR'). cbn [pbind].
      rewrite (register_store_ok R' s (fun I J => foldl (fun v k => g I J k v) (S I J) (seq 0 kc)) Hs).
      - f_equal. pose proof (rtile_row 7 ltac:(lia)). pose proof (rtile_col 7 ltac:(lia)).
        apply (rect_const by_ ii 8 jj 8 (fun I J v => foldl (fun v k => g I J k v) v (seq 0 kc)) S s bx); [done|lia|lia|exact HS].
      - intros iii jjj Hi Hj. rewrite HR' by done. f_equal. apply vec4_ext. intros l Hl.
        assert (exists q, ii = q * 8) as [q Eq] by (apply (rng_multiple bx 8); [lia|exact Hii]).
        assert (exists q, jj = q * 8) as [q' Eq'] by (apply (rng_multiple by_ 8); [lia|exact Hjj]).
        apply foldl_ext_in. intros v k _. rewrite Hg. unfold reg_step. rewrite Eq, Eq'.
        destruct (tile_coord q iii (iii mod 4) Hi ltac:(apply Nat.mod_upper_bound; lia) (iii / 4)) as (->&->&_&_).
        { pose proof (Nat.div_mod iii 4 ltac:(lia)). lia. }
        destruct (tile_coord q' (jjj * 4 + l) l ltac:(lia) Hl jjj eq_refl) as (->&_&->&->). done.
    Qed.
  End Tile.

  Section Multiple.
    Context (Hxn : (bx | n)) (Hyn : (by_ | n)) (Hkn : (kc | n)) (Hx8 : (8 | bx)) (Hy8 : (8 | by_)).
    Context (HA : n * n <= length A) (HB : n * n <= length B) (HC : length C = n * n).
    Context (HoR : offR mod 4 = 0) (HoB : offBB mod 4 = 0).
    Context (Hidx : forall iii jjj, iii < 8 -> jjj < 2 -> idx iii jjj < 16).
    Lemma shift8 x I : (8 | x) -> x + I / 8 * 8 = (x + I) / 8 * 8 /\ (x + I) mod 8 = I mod 8 /\ (x + I) mod 4 = I mod 4.
    Proof.
      intros [q ->]. split_and!.
      - rewrite Nat.div_add_l by lia. lia.
      - by rewrite Nat.add_comm, Nat.mod_add by lia.
      - replace (q * 8 + I) with (I + q * 2 * 4) by lia. by rewrite Nat.mod_add by lia.
    Qed.
    Lemma corner8 b x : (8 | b) -> 0 < b -> x ∈ rng 0 n b -> (8 | x).
    Proof. intros H8 Hb Hx. apply (Nat.divide_trans _ b); [done|]. apply (rng_multiple n b); [lia|exact Hx]. Qed.
    Lemma register_chunk_ok i j kB s : corner n bx by_ i j -> kB ∈ rng 0 n kc -> length s = bx * by_ ->
      register_chunk fma idx junk offR offBB A B n bx by_ kc i j kB s =
        Ret (applyL (tiles_us bx by_ 8 8 (fun I J v => foldl (fun v k => reg_step (ent n A) (ent n B) (i + I) (j + J) (kB + k) v) v (seq 0 kc))) s).
    Proof.
      intros [Hi Hj] HkB Hs. unfold register_chunk.
      assert (forall k, k < kc -> kB + k < n) as HK by (intros k Hk'; by apply (corner_row n kc Hkc Hkn)).
      assert (forall x, x < by_ -> j + x < n) as HJ by (intros k Hk'; by apply (corner_row n by_ Hby Hyn)).
      assert (forall x, x < bx -> i + x < n) as HI by (intros k Hk'; by apply (corner_row n bx Hbx Hxn)).
      destruct (copy_rows_ok A n i kB bx kc (replicate (bx * kc) junk) HA) as (AA&->&_&HAA); [by rewrite replicate_length|done|done|].
      destruct (copy_rows_ok B n kB j kc by_ (replicate (by_ * kc) junk) HB) as (BB&->&_&HBB); [rewrite replicate_length; lia|done|done|].
      cbn [pbind]. unfold tiles_us. apply (forS_applyG (bx * by_)); [lia|done|]. intros ii s1 Hii Hs1.
      apply (forS_applyG (bx * by_)); [lia|done|]. intros jj s2 Hjj Hs2.
      apply (register_tile_ok (fun I k => ent n A (i + I) (kB + k)) (fun k J => ent n B (kB + k) (j + J)) AA BB ii jj Hx8 Hy8 HAA HBB Hii Hjj HoR HoB Hidx
        (fun I J k v => reg_step (ent n A) (ent n B) (i + I) (j + J) (kB + k) v)); [|done].
      intros I J k v. unfold reg_step.
      destruct (shift8 i I (corner8 bx i Hx8 Hbx Hi)) as (<-&->&_). destruct (shift8 j J (corner8 by_ j Hy8 Hby Hj)) as (<-&->&->).
      apply foldl_ext_in. intros w x _. by rewrite !Nat.add_assoc.
    Qed.
    Theorem multRegister_entries :
      always (multRegister_with bx by_ kc fma idx junk offR offBB A B C n) (is_matrix n regs_entry).
    Proof.
      unfold multRegister_with.
      apply (written_par n bx by_ C Hbx Hby Hxn Hyn HC (register_block fma idx junk offR offBB A B n bx by_ kc)).
      intros i j Hc. unfold register_block. rewrite zero_block_ok by (by rewrite replicate_length). cbn [pbind].
      rewrite (forS_applyG (bx * by_) _ _ _ _ (fun kB => tiles_us bx by_ 8 8 (fun I J v => foldl (fun v k => reg_step (ent n A) (ent n B) (i + I) (j + J) (kB + k) v) v (seq 0 kc))));
        [|done|by rewrite replicate_length|].
      - eexists. split; [done|]. intros ii jj Hii Hjj.
        rewrite (chunks_lookup bx by_ 8 8 kc n (fun I J k v => reg_step (ent n A) (ent n B) (i + I) (j + J) k v) nzero ii jj); try done; lia.
      - intros kB r Hk Hr. by apply register_chunk_ok.
    Qed.
  End Multiple.

  Lemma errD_register i j : errD ubE (register_block fma idx junk offR offBB A B n bx by_ kc i j).
  Proof.
    unfold register_block. apply errD_bind; [apply errD_zero_block|]. intros r. apply errD_bind; [|intros r'; apply errD_write_block].
    apply errD_forS; [lia|]. intros kB s1 _. unfold register_chunk. do 2 (apply errD_bind; [apply errD_copy_rows|intros ?]).
    apply errD_forS; [lia|]. intros ii s2 _. apply errD_forS; [lia|]. intros jj s3 _. unfold register_tile.
    apply errD_bind; [|intros reg; apply errD_bind; [|intros reg']].
    - apply errD_forS; [lia|]. intros iii s4 _. apply errD_forS; [lia|]. intros jjj s5 _. apply errD_bind; [apply errD_load|]. intros x. apply errD_gset.
    - apply errD_forS; [lia|]. intros k s4 _. apply errD_forS; [lia|]. intros iii s5 _. apply errD_bind; [by apply errD_vget|]. intros x.
      apply errD_forS; [lia|]. intros jjj s6 _. apply errD_bind; [apply errD_load|]. intros b. apply errD_bind; [apply errD_gget|]. intros y. apply errD_gset.
    - apply errD_forS; [lia|]. intros iii s4 _. apply errD_forS; [lia|]. intros jjj s5 _. apply errD_bind; [apply errD_gget|]. intros x. apply errD_store.
  Qed.
  Lemma register_fails i j : i ∈ rng 0 n bx -> j ∈ rng 0 n by_ -> noret (register_block fma idx junk offR offBB A B n bx by_ kc i j) ->
    always_ub (multRegister_with bx by_ kc fma idx junk offR offBB A B C n).
  Proof.
    intros Hi Hj Hn. apply fail_with_C.
    - apply (noret_parL _ _ i); [done|]. by apply (noret_forS _ _ _ _ _ j).
    - apply errD_parL. intros i' _. apply errD_forS; [lia|]. intros j' _ _. apply errD_register.
  Qed.
  Theorem multRegister_other : ~ (bx | n) -> length A < n * n + n ->
    always_ub (multRegister_with bx by_ kc fma idx junk offR offBB A B C n).
  Proof.
    intros Hn HA. destruct (not_multiple bx n Hbx Hn) as (i&Hi&Hin).
    apply (register_fails i 0); [done|apply block0; lia|].
    destruct (last_chunk kc n Hkc ltac:(lia)) as (kB&k&Hk1&Hk2&Hk3). unfold register_block. apply noret_bind_r. intros r.
    apply noret_bind_l, (noret_forS _ _ _ _ _ kB); [done|done|]. intros s. unfold register_chunk. apply noret_bind_l.
    apply (noret_copy_rows A n i kB bx kc _ k); [lia|done|done|done].
  Qed.
  Theorem multRegister_misaligned : 0 < n -> offR mod 4 <> 0 \/ offBB mod 4 <> 0 ->
    always_ub (multRegister_with bx by_ kc fma idx junk offR offBB A B C n).
  Proof.
    intros Hn Hoff. apply (register_fails 0 0); [by apply block0|by apply block0|].
    assert (forall b s, 0 < b -> 0 < s -> 0 ∈ rng 0 b s) as H0 by (intros b s Hb Hs; apply elem_of_rng; [lia|]; exists 0; lia).
    unfold register_block. apply noret_bind_r. intros r. apply noret_bind_l, (noret_forS _ _ _ _ _ 0); [done|by apply block0|]. intros s.
    unfold register_chunk. do 2 (apply noret_bind_r; intros ?).
    apply (noret_forS _ _ _ _ _ 0); [lia|apply H0; lia|]. intros s2. apply (noret_forS _ _ _ _ _ 0); [lia|apply H0; lia|]. intros s3.
    unfold register_tile. destruct Hoff as [Ho|Ho].
    - apply noret_bind_l, (noret_forS _ _ _ _ _ 0); [lia|apply H0; lia|]. intros s4. apply (noret_forS _ _ _ _ _ 0); [lia|apply H0; lia|]. intros s5.
      apply noret_bind_l, noret_misaligned. by rewrite Nat.add_0_r.
    - apply noret_bind_r. intros reg. apply noret_bind_l, (noret_forS _ _ _ _ _ 0); [lia|apply H0; lia|]. intros s4.
      apply (noret_forS _ _ _ _ _ 0); [lia|apply H0; lia|]. intros s5. apply noret_bind_r. intros x.
      apply (noret_forS _ _ _ _ _ 0); [lia|apply H0; lia|]. intros s6.
      apply noret_bind_l, noret_misaligned. by rewrite Nat.add_0_r.
  Qed.
End Register.

(** The two register numberings. *)
Lemma hits_right r c : r < 8 -> c < 2 -> hits (fun iii jjj => iii * 2 + jjj) (r * 2 + c) = [(r, c)].
Proof. intros Hr Hc. do 8 (destruct r as [|r]; [do 2 (destruct c as [|c]; [reflexivity|]); lia|]). lia. Qed.
Lemma hits_wrong r c : r < 8 -> c < 2 -> let p := r * 2 + c in
  hits (fun iii jjj => jjj * 2 + iii) p =
    (if (2 <=? p) && (p <? 10) then [(p - 2, 1)] else []) ++ (if p <? 8 then [(p, 0)] else []).
Proof. intros Hr Hc. do 8 (destruct r as [|r]; [do 2 (destruct c as [|c]; [reflexivity|]); lia|]). lia. Qed.
Lemma half_lt j : j mod 8 / 4 < 2.
Proof. apply Nat.div_lt_upper_bound; [lia|]. pose proof (Nat.mod_upper_bound j 8 ltac:(lia)). lia. Qed.
Lemma half_col j : j / 8 * 8 + (j mod 8 / 4 * 4 + j mod 4) = j.
Proof.
  pose proof (Nat.div_mod j 8 ltac:(lia)). pose proof (Nat.div_mod (j mod 8) 4 ltac:(lia)).
  assert (j mod 8 mod 4 = j mod 4) as E. { change 8 with (4 * 2). rewrite Nat.mod_mul_r by lia. rewrite Nat.mul_comm, Nat.mod_add, Nat.mod_mod by lia. done. }
  lia.
Qed.

Section Register2.
  Context {T : Type} `{NumOps T}.
  Context (bx by_ kc : nat) (fma : T -> T -> T -> T) (junk : T) (offR offBB : nat) (A B C : list T) (n : nat).
  Context (Hbx : 0 < bx) (Hby : 0 < by_) (Hkc : 0 < kc).
  Context (Hxn : (bx | n)) (Hyn : (by_ | n)) (Hkn : (kc | n)) (Hx8 : (8 | bx)) (Hy8 : (8 | by_)).
  Context (HA : n * n <= length A) (HB : n * n <= length B) (HC : length C = n * n).
  Context (HoR : offR mod 4 = 0) (HoB : offBB mod 4 = 0).
  Theorem multRegister_correct :
    always (multRegister_with bx by_ kc fma (fun iii jjj => iii * 2 + jjj) junk offR offBB A B C n) (is_matrix n (fma_entry fma n A B)).
  Proof.
    eapply always_mono; [|apply multRegister_entries; try done; lia].
    intros r. apply is_matrix_ext. intros i j _ _. unfold regs_entry, fma_entry, fma_dot.
    apply foldl_ext_in. intros v k _. unfold reg_step. rewrite hits_right; [|apply Nat.mod_upper_bound; lia|apply half_lt].
    cbn [foldl fst snd]. rewrite half_col. do 2 f_equal. pose proof (Nat.div_mod i 8 ltac:(lia)). lia.
  Qed.
  Theorem multRegister_misplaced :
    always (multRegister_with bx by_ kc fma (fun iii jjj => jjj * 2 + iii) junk offR offBB A B C n) (is_matrix n (misplaced_entry fma n A B)).
  Proof.
    eapply always_mono; [|apply multRegister_entries; try done; lia].
    intros r. apply is_matrix_ext. intros i j _ _. unfold regs_entry, misplaced_entry.
    apply foldl_ext_in. intros v k _. unfold reg_step. rewrite hits_wrong; [|apply Nat.mod_upper_bound; lia|apply half_lt].
    replace (2 * (i mod 8)) with (i mod 8 * 2) by lia. set (p := i mod 8 * 2 + j mod 8 / 4).
    rewrite foldl_app. destruct ((2 <=? p) && (p <? 10)), (p <? 8); cbn [foldl fst snd]; rewrite ?Nat.add_assoc; done.
  Qed.
End Register2.
Lemma misplaced_zero {T} `{NumOps T} fma n (A B : list T) i j : 5 <= i mod 8 -> misplaced_entry fma n A B i j = nzero.
Proof.
  intros Hi. unfold misplaced_entry. set (p := 2 * (i mod 8) + j mod 8 / 4). assert (10 <= p) by lia.
  rewrite (proj2 (Nat.ltb_ge p 10)), (proj2 (Nat.ltb_ge p 8)) by lia. rewrite andb_false_r. by induction (seq 0 n).
Qed.
