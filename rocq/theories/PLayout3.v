(** The shipped tests of the memory layout pass; what they do not see. *)
From Coq Require Import ZArith Reals.
From Flocq Require Import IEEE754.Binary IEEE754.Bits.
From Verif Require Import Base LoopFacts MIter PIter Num MCeil PCeil MDouble MTests MTile SpecTile PTile PTile2 MTests2 SpecLayout PLayout1 PLayout2.
Local Open Scope nat_scope.

Lemma row_by_row_lexs q : 0 < q -> row_by_row q (lexs [q; q]).
Proof.
  intros Hq. split.
  - rewrite lexs_length. cbn [extent_prod]. lia.
  - intros k Hk. assert (Hw : within [k / q; k mod q] [q; q]).
    { constructor; [apply Nat.div_lt_upper_bound; lia|]. constructor; [apply Nat.mod_upper_bound; lia|constructor]. }
    rewrite <- (lexs_at _ _ Hw). f_equal. cbn [row_major extent_prod]. pose proof (Nat.div_mod k q). lia.
Qed.
Lemma iterate_is_visiting {S} ti (f : tile_view -> S -> res S) s : length ti = 2 -> sizes_positive ti ->
  iterate_tiles ti f s = visiting (lexs (counts_of ti)) ti f s.
Proof.
  intros Hti Hp. rewrite iterate_tiles_views by done. unfold visiting. rewrite foldR_map. apply foldR_ext.
  intros t s' Ht. apply elem_of_lexs in Ht. apply within_counts_length in Ht. by rewrite tile_view_new_Ok by (done || lia).
Qed.

Section Shipped.
  Context (L : layout_test) (Hfit : fits L).
  Notation N := (l_N L).
  Notation b := (l_tile L).
  Notation q := (N / b).
  Notation ti := (test_tiling L).

  Lemma counted_length : length (counted_matrix N) = N * N.
  Proof. unfold counted_matrix. by rewrite fmap_length, seq_length. Qed.
  Lemma counted_lookup k : k < N * N -> counted_matrix N !! k = Some (double_of (Z.of_nat k)).
  Proof. intros Hk. unfold counted_matrix. rewrite list_lookup_fmap, lookup_seq_lt by done. done. Qed.
  Lemma places t u i j : place_original ti [t; u] [i; j] = (t * b + i) * N + (u * b + j) /\
    place_tiled ti [t; u] [i; j] = (t * q + u) * (b * b) + (i * b + j).
  Proof.
    unfold place_original, place_tiled. rewrite (ti_strides L Hfit), (ti_counts L Hfit), ti_sizes.
    cbn [zip_with row_major extent_prod]. lia.
  Qed.
  Lemma tiled_right R t u : is_tiled ti (counted_matrix N) R -> t < q -> u < q -> tile_right N b R t u.
  Proof.
    intros [Hlen Hr] Ht Hu i j Hi Hj. destruct (places t u i j) as [Ho Hp].
    destruct (Hr [t; u] [i; j]) as (x&Hx&HRx).
    { rewrite (ti_counts L Hfit). repeat constructor; done. }
    { rewrite ti_sizes. repeat constructor; done. }
    rewrite Ho in Hx. rewrite Hp in HRx. exists x. split; [done|].
    pose proof (counted_small L Hfit t u i j Ht Hu Hi Hj) as Hc.
    rewrite counted_lookup in Hx.
    2:{ apply lookup_lt_Some in Hx. by rewrite counted_length in Hx. }
    assert (Ex : x = double_of (counted N b t u i j)) by (by injection Hx as <-). subst x.
    destruct (double_of_exact _ Hc) as [Hv Hf]. done.
  Qed.
  Lemma shipped_tiled : exists R, make_tiled nzero 2 (counted_matrix N) ti = Ok R /\ is_tiled ti (counted_matrix N) R.
  Proof.
    destruct (make_tiled_ok nzero (counted_matrix N) ti) as (R&HR&Hi&_); [by apply ti_pos| |by exists R].
    rewrite counted_length, (ti_strides L Hfit). cbn [extent_prod]. lia.
  Qed.
  Lemma tiled_corners R : is_tiled ti (counted_matrix N) R -> corners_right N b R.
  Proof.
    intros HR. pose proof (f_q L Hfit) as Hq. unfold corners_right. split_and!; (apply tiled_right; [done|lia|lia]).
  Qed.
  Lemma view_passes : test_view (make_tiled nzero 2) L = Ok true.
  Proof.
    destruct shipped_tiled as (R&HR&Hi). destruct (view_verdict L Hfit _ R HR) as (v&->&Hv).
    { destruct Hi as [-> _]. apply counted_length. }
    f_equal. apply Hv. by apply tiled_corners.
  Qed.
  Lemma iterate_passes : 2 <= q -> test_iterate (make_tiled nzero 2) iterate_tiles L = Ok true.
  Proof.
    intros Hq. destruct shipped_tiled as (R&HR&Hi).
    assert (E : test_iterate (make_tiled nzero 2) iterate_tiles L = test_iterate (make_tiled nzero 2) (visiting (lexs [q; q])) L).
    { unfold test_iterate. rewrite HR. cbn [rbind].
      rewrite iterate_is_visiting by (done || by apply ti_pos). by rewrite (ti_counts L Hfit). }
    rewrite E. destruct (iterate_verdict L Hfit _ R (lexs [q; q]) Hq HR) as (v&->&Hv).
    { destruct Hi as [-> _]. apply counted_length. }
    { apply Forall_forall. intros t Ht. by apply elem_of_lexs. }
    f_equal. apply Hv. split; [apply row_by_row_lexs; lia|by apply tiled_corners].
  Qed.

  (** One entry of tile (1, 1) is lost. *)
  Definition lossy (org : list binary64) (tl : list tiling_info_dim) : res (list binary64) :=
    let? R := make_tiled nzero 2 org tl in Ok (<[(1 * q + 1) * (b * b) := double_of 0]> R).
  Lemma lossy_blind : 3 <= q ->
    exists R, lossy (counted_matrix N) ti = Ok R /\ length R = N * N /\ corners_right N b R /\ ~ is_tiled ti (counted_matrix N) R.
  Proof.
    intros Hq. destruct shipped_tiled as (R&HR&Hi). pose proof (f_pos L Hfit) as Hb. pose proof (f_le L Hfit) as Hle.
    unfold lossy. rewrite HR. cbn [rbind]. eexists. split; [done|].
    assert (Hlen : length R = N * N) by (destruct Hi as [-> _]; apply counted_length).
    split; [by rewrite insert_length|]. split.
    - assert (Hc : forall t u, t < q -> u < q -> is_corner q t u -> tile_right N b (<[(1 * q + 1) * (b * b) := double_of 0]> R) t u).
      { intros t u Ht Hu Hcn i j Hi' Hj. destruct (tiled_right R t u Hi Ht Hu i j Hi' Hj) as (x&Hx&Hv). exists x. split; [|done].
        rewrite list_lookup_insert_ne; [done|]. intros E. destruct Hcn as [Hc1 Hc2].
        assert (E' : 1 * q + 1 = t * q + u) by nia. destruct Hc1 as [->| ->], Hc2 as [->| ->]; nia. }
      unfold corners_right. split_and!; (apply Hc; [lia|lia|split; lia]).
    - intros Ht. pose proof (tiled_right _ 1 1 Ht ltac:(lia) ltac:(lia) 0 0 Hb Hb) as (x&Hx&_&Hv).
      assert (Hin : (1 * q + 1) * (b * b) < length R).
      { rewrite Hlen. pose proof (q_mul L Hfit). assert ((1 * q + 1) * (b * b) < q * q * (b * b)) by nia.
        assert (q * q * (b * b) = (q * b) * (q * b)) by lia. pose proof (Nat.mul_le_mono (q * b) N (q * b) N ltac:(lia) ltac:(lia)). lia. }
      replace ((1 * q + 1) * (b * b) + (0 * b + 0)) with ((1 * q + 1) * (b * b)) in Hx by lia.
      rewrite list_lookup_insert in Hx by done. injection Hx as <-.
      destruct (double_of_exact 0) as [H0 _]; [lia|]. rewrite H0 in Hv. apply eq_IZR in Hv. unfold counted in Hv. nia.
  Qed.
End Shipped.

(** The literals of the two files list the corner tiles. *)
Lemma lookup_table n (l : list Z) (f : nat -> nat -> Z) : l = (seq 0 n ≫= fun i => f i <$> seq 0 n) ->
  forall i j, i < n -> j < n -> l !! (i * n + j) = Some (f i j).
Proof.
  intros -> i j Hi Hj.
  assert (H : forall lo m, lo <= i -> i < lo + m -> (seq lo m ≫= fun i => f i <$> seq 0 n) !! ((i - lo) * n + j) = Some (f i j)).
  { intros lo m. revert lo. induction m as [|m IH]; intros lo Hlo Hm; [lia|]. cbn [seq]. rewrite bind_cons.
    destruct (Nat.eq_dec i lo) as [->|Hne].
    - rewrite lookup_app_l by (rewrite fmap_length, seq_length; lia). replace ((lo - lo) * n + j) with j by lia.
      by rewrite list_lookup_fmap, lookup_seq_lt by done.
    - rewrite lookup_app_r by (rewrite fmap_length, seq_length; nia). rewrite fmap_length, seq_length.
      replace ((i - lo) * n + j - n) with ((i - S lo) * n + j) by nia. apply IH; lia. }
  specialize (H 0 n ltac:(lia) ltac:(lia)). by rewrite Nat.sub_0_r in H.
Qed.
Definition counted_z (N b ti tj i j : Z) : Z := ((ti * b + i) * N + (tj * b + j))%Z.
Lemma shipped_reference ti tj (l : list Z) :
  l = (seq 0 4 ≫= fun i => (fun j => counted_z 256 4 (Z.of_nat ti) (Z.of_nat tj) (Z.of_nat i) (Z.of_nat j)) <$> seq 0 4) ->
  reference_fits 256 4 ti tj l.
Proof.
  intros Hl i j Hi Hj. rewrite (lookup_table 4 l _ Hl i j Hi Hj). f_equal. unfold counted, counted_z. lia.
Qed.
Lemma shipped_fits : fits shipped_layout.
Proof.
  unfold fits, shipped_layout. cbn [l_N l_tile l_stride l_width l_row l_last l_first l_first_end l_first_last l_bottom].
  assert (Hq : 256 / 4 = 64) by reflexivity. rewrite Hq. change (64 - 1) with 63.
  split; [lia|]. split; [lia|]. do 4 (split; [reflexivity|]). split.
  { rewrite Nat2Z.inj_mul. vm_compute. discriminate. }
  split_and!; apply shipped_reference; vm_compute; reflexivity.
Qed.
Lemma blind_suites L : fits L -> 3 <= l_N L / l_tile L ->
  exists tiling R, tiling (counted_matrix (l_N L)) (test_tiling L) = Ok R /\
    test_view tiling L = Ok true /\ test_iterate tiling iterate_tiles L = Ok true /\
    ~ is_tiled (test_tiling L) (counted_matrix (l_N L)) R.
Proof.
  intros Hf Hq. destruct (lossy_blind L Hf Hq) as (R&HR&Hlen&Hc&Hn). exists (lossy L), R. split; [done|].
  destruct (view_verdict L Hf _ R HR Hlen) as (v&Hv&Ev).
  assert (E : test_iterate (lossy L) iterate_tiles L = test_iterate (lossy L) (visiting (lexs [l_N L / l_tile L; l_N L / l_tile L])) L).
  { unfold test_iterate. rewrite HR. cbn [rbind].
    rewrite iterate_is_visiting by (done || by apply ti_pos). by rewrite (ti_counts L Hf). }
  destruct (iterate_verdict L Hf _ R (lexs [l_N L / l_tile L; l_N L / l_tile L]) ltac:(lia) HR Hlen) as (w&Hw&Ew).
  { apply Forall_forall. intros t Ht. by apply elem_of_lexs. }
  split_and!; [| |done].
  - rewrite Hv. f_equal. by apply Ev.
  - rewrite E, Hw. f_equal. apply Ew. split; [apply row_by_row_lexs; lia|done].
Qed.
