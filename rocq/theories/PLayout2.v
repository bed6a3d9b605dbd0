(** The verdicts of the two test suites of the memory layout. *)
From Coq Require Import ZArith Reals.
From Flocq Require Import IEEE754.Binary IEEE754.Bits.
From Verif Require Import Base LoopFacts MIter PIter MCeil MDouble MTests MTile SpecTile PTile PTile2 MTests2 SpecLayout PLayout1.
Local Open Scope nat_scope.

(** * Conjunctions over loops *)
Lemma foldR_checks {X} (l : list X) (g : X -> bool -> res bool) (P : X -> Prop) :
  (forall x, x ∈ l -> forall ok, exists v, g x ok = Ok v /\ (v = true <-> ok = true /\ P x)) ->
  forall ok, exists v, foldR l g ok = Ok v /\ (v = true <-> ok = true /\ forall x, x ∈ l -> P x).
Proof.
  induction l as [|x l IH]; intros Hg ok; cbn [foldR].
  - exists ok. split; [done|]. split; [|by intros []]. intros ->. split; [done|]. intros x Hx. by apply elem_of_nil in Hx.
  - destruct (Hg x (elem_of_list_here _ _) ok) as (v&->&Hv). cbn [rbind].
    destruct (IH (fun y Hy => Hg y (elem_of_list_further _ _ _ Hy)) v) as (v'&->&Hv'). exists v'. split; [done|].
    rewrite Hv', Hv. split.
    + intros [[Ho Hx] Hl]. split; [done|]. intros y Hy. apply elem_of_cons in Hy as [->|Hy]; [done|]. by apply Hl.
    + intros [Ho Hl]. split; [split; [done|apply Hl, elem_of_list_here]|]. intros y Hy. by apply Hl, elem_of_list_further.
Qed.
Lemma forR_checks n (g : nat -> bool -> res bool) (P : nat -> Prop) :
  (forall i, i < n -> forall ok, exists v, g i ok = Ok v /\ (v = true <-> ok = true /\ P i)) ->
  forall ok, exists v, forR 0 n 1 g ok = Ok v /\ (v = true <-> ok = true /\ forall i, i < n -> P i).
Proof.
  intros Hg ok. rewrite forR_1. destruct (foldR_checks (seq 0 n) g P) with (ok := ok) as (v&->&Hv).
  - intros x Hx. apply elem_of_seq in Hx. apply Hg. lia.
  - exists v. split; [done|]. rewrite Hv. split; intros [Ho Hl]; (split; [done|]); intros i Hi; apply Hl.
    + apply elem_of_seq. lia.
    + apply elem_of_seq in Hi. lia.
Qed.

Section Verdict.
  Context (L : layout_test) (Hfit : fits L).
  Notation N := (l_N L).
  Notation b := (l_tile L).
  Notation q := (N / b).
  Notation ti := (test_tiling L).

  Lemma f_pos : 0 < b. Proof. by destruct Hfit. Qed.
  Lemma f_le : b <= N. Proof. by destruct Hfit as (_&?&_). Qed.
  Lemma f_stride : l_stride L = N. Proof. by destruct Hfit as (_&_&?&_). Qed.
  Lemma f_width : l_width L = b. Proof. by destruct Hfit as (_&_&_&?&_). Qed.
  Lemma f_row : l_row L = q. Proof. by destruct Hfit as (_&_&_&_&?&_). Qed.
  Lemma f_last : l_last L = q - 1. Proof. by destruct Hfit as (_&_&_&_&_&?&_). Qed.
  Lemma f_bound : (Z.of_nat (N * N) <= 2 ^ 53)%Z. Proof. by destruct Hfit as (_&_&_&_&_&_&?&_). Qed.
  Lemma f_q : 0 < q.
  Proof. pose proof f_pos. pose proof f_le. apply Nat.div_str_pos. lia. Qed.
  Lemma ti_length : length ti = 2. Proof. done. Qed.
  Lemma ti_pos : sizes_positive ti.
  Proof. pose proof f_pos. unfold test_tiling, sizes_positive. repeat constructor; cbn; lia. Qed.
  Lemma ti_counts : counts_of ti = [q; q].
  Proof. unfold counts_of, test_tiling. cbn [fmap list_fmap stride tile_size_dir]. by rewrite f_stride. Qed.
  Lemma ti_sizes : sizes_of ti = [b; b]. Proof. done. Qed.
  Lemma ti_strides : strides_of ti = [N; N].
  Proof. unfold strides_of, test_tiling. cbn [fmap list_fmap stride]. by rewrite f_stride. Qed.
  Lemma q_mul : q * b <= N.
  Proof. pose proof (Nat.mul_div_le N b). pose proof f_pos. lia. Qed.

  Lemma counted_small t u i j : t < q -> u < q -> i < b -> j < b -> (0 <= counted N b t u i j < 2 ^ 53)%Z.
  Proof.
    intros Ht Hu Hi Hj. pose proof q_mul as Hq. pose proof f_bound as Hb. unfold counted. split; [lia|].
    assert (Hr : t * b + i < N) by nia. assert (Hc : u * b + j < N) by nia.
    enough ((t * b + i) * N + (u * b + j) < N * N) by lia. nia.
  Qed.
  (** Reading an entry through a view. *)
  Lemma view_entry (R : list binary64) t u i j : length R = N * N -> t < q -> u < q -> i < b -> j < b ->
    exists x, R !! ((t * q + u) * (b * b) + (i * b + j)) = Some x /\ tv_at_index R (view_of ti [t; u]) [i; j] = Ok x.
  Proof.
    intros HR Ht Hu Hi Hj. pose proof q_mul as Hq.
    destruct (lookup_lt_is_Some_2 R ((t * q + u) * (b * b) + (i * b + j))) as [x Hx].
    { rewrite HR. assert (H1 : t * q + u < q * q) by nia. assert (H2 : i * b + j < b * b) by nia.
      assert (H3 : (t * q + u) * (b * b) + (i * b + j) < q * q * (b * b)) by nia.
      assert (H4 : q * q * (b * b) = (q * b) * (q * b)) by lia. rewrite H4 in H3. clear -H3 Hq.
      pose proof (Nat.mul_le_mono (q * b) N (q * b) N Hq Hq). lia. }
    exists x. split; [done|]. unfold tv_at_index. rewrite tv_flat_index_Ok by done. cbn [rbind].
    cbn [view_of tv_base_offset]. rewrite ti_counts, ti_sizes. cbn [row_major extent_prod].
    apply lget_Some. rewrite <- Hx. f_equal. lia.
  Qed.
  Lemma compare_view_spec (same : binary64 -> binary64 -> bool) R t u ref :
    (forall x z, (0 <= z < 2 ^ 53)%Z -> same x (double_of z) = true <-> finite64 x = true /\ val64 x = IZR z) ->
    length R = N * N -> t < q -> u < q -> reference_fits N b t u ref ->
    forall ok, exists v, compare_view same L R (view_of ti [t; u]) ref ok = Ok v /\ (v = true <-> ok = true /\ tile_right N b R t u).
  Proof.
    intros Hsame HR Ht Hu Href ok. unfold compare_view.
    destruct (forR_checks b (fun i ok => forR 0 b 1 (fun j ok =>
        let? x := tv_at_index R (view_of ti [t; u]) [i; j] in
        let? r := lget (double_of <$> ref) (i * l_width L + j) in Ok (ok && same x r)) ok)
      (fun i => forall j, j < b -> exists x, R !! ((t * q + u) * (b * b) + (i * b + j)) = Some x /\
         finite64 x = true /\ val64 x = IZR (counted N b t u i j))) with (ok := ok) as (v&->&Hv).
    - intros i Hi ok'. apply (forR_checks b _ (fun j => exists x, R !! ((t * q + u) * (b * b) + (i * b + j)) = Some x /\
         finite64 x = true /\ val64 x = IZR (counted N b t u i j))).
      intros j Hj ok''. destruct (view_entry R t u i j HR Ht Hu Hi Hj) as (x&Hx&->). cbn [rbind].
      rewrite f_width. rewrite (lget_Some _ _ (double_of (counted N b t u i j))).
      2:{ rewrite list_lookup_fmap. by rewrite (Href i j Hi Hj). }
      cbn [rbind]. eexists. split; [done|]. rewrite andb_true_iff. rewrite Hsame by (by apply counted_small).
      split; intros [Ho Hr]; (split; [done|]).
      + exists x. done.
      + destruct Hr as (x'&Hx'&Hr). pose proof (eq_trans (eq_sym Hx) Hx') as E. injection E as <-. done.
    - exists v. split; [done|]. rewrite Hv. unfold tile_right. split; intros [Ho Hr]; (split; [done|]); intros.
      + by apply Hr.
      + by apply Hr.
  Qed.
  Lemma compare_tile_spec R t u ref : length R = N * N -> t < q -> u < q -> reference_fits N b t u ref ->
    forall ok, exists v, compare_tile L R [t; u] ref ok = Ok v /\ (v = true <-> ok = true /\ tile_right N b R t u).
  Proof.
    intros HR Ht Hu Href ok. unfold compare_tile. rewrite tile_view_new_Ok by (done || apply ti_pos). cbn [rbind].
    apply compare_view_spec; try done. intros x z Hz. by apply close15_exact.
  Qed.
  Lemma view_verdict tiling R : tiling (counted_matrix N) ti = Ok R -> length R = N * N ->
    exists v, test_view tiling L = Ok v /\ (v = true <-> corners_right N b R).
  Proof.
    intros Ht HR. unfold test_view. rewrite Ht. cbn [rbind]. pose proof f_pos as Hb. pose proof f_q as Hq.
    destruct (Nat.eqb_spec b 0) as [E|_]; [lia|]. rewrite f_stride.
    destruct Hfit as (_&_&_&_&_&_&_&H0&H1&H2&H3).
    destruct (compare_tile_spec R 0 0 _ HR Hq Hq H0 true) as (v0&->&E0). cbn [rbind].
    destruct (compare_tile_spec R 0 (q - 1) _ HR Hq ltac:(lia) H1 v0) as (v1&->&E1). cbn [rbind].
    destruct (compare_tile_spec R (q - 1) 0 _ HR ltac:(lia) Hq H2 v1) as (v2&->&E2). cbn [rbind].
    destruct (compare_tile_spec R (q - 1) (q - 1) _ HR ltac:(lia) ltac:(lia) H3 v2) as (v3&->&E3).
    exists v3. split; [done|]. rewrite E3, E2, E1, E0. unfold corners_right. tauto.
  Qed.

  (** * The callback *)
  Lemma compare_view_total (same : binary64 -> binary64 -> bool) R t u t' u' ref :
    length R = N * N -> t < q -> u < q -> reference_fits N b t' u' ref ->
    exists v, compare_view same L R (view_of ti [t; u]) ref false = Ok v /\ v = false.
  Proof.
    intros HR Ht Hu Href. unfold compare_view.
    destruct (forR_checks b (fun i ok => forR 0 b 1 (fun j ok =>
        let? x := tv_at_index R (view_of ti [t; u]) [i; j] in
        let? r := lget (double_of <$> ref) (i * l_width L + j) in Ok (ok && same x r)) ok)
      (fun i => forall j, j < b -> exists x, R !! ((t * q + u) * (b * b) + (i * b + j)) = Some x /\
         same x (double_of (counted N b t' u' i j)) = true)) with (ok := false) as (v&->&Hv).
    - intros i Hi ok'. apply (forR_checks b _ (fun j => exists x, R !! ((t * q + u) * (b * b) + (i * b + j)) = Some x /\
         same x (double_of (counted N b t' u' i j)) = true)).
      intros j Hj ok''. destruct (view_entry R t u i j HR Ht Hu Hi Hj) as (x&Hx&->). cbn [rbind].
      rewrite f_width. rewrite (lget_Some _ _ (double_of (counted N b t' u' i j))).
      2:{ rewrite list_lookup_fmap. by rewrite (Href i j Hi Hj). }
      cbn [rbind]. eexists. split; [done|]. rewrite andb_true_iff.
      split; intros [Ho Hr]; (split; [done|]).
      + exists x. done.
      + destruct Hr as (x'&Hx'&Hr). pose proof (eq_trans (eq_sym Hx) Hx') as E. injection E as <-. done.
    - exists v. split; [done|]. destruct v; [|done]. destruct Hv as [Hv _]. by destruct (Hv eq_refl).
  Qed.
  (** Compare the visited tile with the references of the tile that is expected. *)
  Lemma compare_expected R t u t' u' ref (ok : bool) : length R = N * N -> t < q -> u < q -> t' < q -> u' < q ->
    reference_fits N b t' u' ref ->
    exists v, compare_view eq64 L R (view_of ti [t; u]) ref (ok && (t =? t') && (u =? u')) = Ok v /\
      (v = true <-> ok = true /\ t = t' /\ u = u' /\ tile_right N b R t' u').
  Proof.
    intros HR Ht Hu Ht' Hu' Href. destruct (Nat.eqb_spec t t') as [->|Hn]; [destruct (Nat.eqb_spec u u') as [->|Hn]|].
    - rewrite !andb_true_r. destruct (compare_view_spec eq64 R t' u' ref) with (ok := ok) as (v&->&Hv); try done.
      { intros x z Hz. by apply eq64_exact. }
      exists v. split; [done|]. rewrite Hv. tauto.
    - rewrite andb_false_r. destruct (compare_view_total eq64 R t' u t' u' ref) as (v&->&->); try done.
      exists false. split; [done|]. split; [done|]. intros (_&_&E&_). by subst.
    - rewrite andb_false_r. cbn [andb]. destruct (compare_view_total eq64 R t u t' u' ref) as (v&->&->); try done.
      exists false. split; [done|]. split; [done|]. intros (_&E&_). by subst.
  Qed.

  Definition visited (k : nat) (c0 c1 c2 c3 ok : bool) : visit := Visit (k / q) (k mod q) c0 c1 c2 c3 ok.
  Lemma next_visit k c0 c1 c2 c3 ok :
    (if k mod q + 1 =? l_row L then Visit (k / q + 1) 0 c0 c1 c2 c3 ok else Visit (k / q) (k mod q + 1) c0 c1 c2 c3 ok)
    = visited (k + 1) c0 c1 c2 c3 ok.
  Proof.
    rewrite f_row. pose proof f_q as Hq. unfold visited. pose proof (Nat.mod_upper_bound k q ltac:(lia)) as Hm.
    pose proof (Nat.div_mod k q ltac:(lia)) as Hk. set (d := k / q) in *. set (r := k mod q) in *. set (p := q) in *. clearbody d r p.
    destruct (Nat.eqb_spec (r + 1) p) as [E|Hne].
    - f_equal; [apply Nat.div_unique with 0|apply Nat.mod_unique with (d + 1)]; nia.
    - f_equal; [apply Nat.div_unique with (r + 1)|apply Nat.mod_unique with d]; nia.
  Qed.
  Lemma div_mod_is k t u : t < q -> u < q -> (k / q = t /\ k mod q = u <-> k = t * q + u).
  Proof.
    intros Ht Hu. pose proof (Nat.div_mod k q ltac:(lia)) as Hk. split.
    - intros [<- <-]. lia.
    - intros ->. split; symmetry; [apply Nat.div_unique with u|apply Nat.mod_unique with t]; lia.
  Qed.
  Lemma visit_spec R t u k c0 c1 c2 c3 (ok : bool) : 2 <= q -> length R = N * N -> t < q -> u < q ->
    exists ok', visit_view L R (view_of ti [t; u]) (visited k c0 c1 c2 c3 ok)
      = Ok (visited (k + 1) (c0 || (k =? 0)) (c1 || (k =? q - 1)) (c2 || (k =? (q - 1) * q)) (c3 || (k =? (q - 1) * q + (q - 1))) ok') /\
      (ok' = true <-> ok = true /\ t = k / q /\ u = k mod q /\ (is_corner q (k / q) (k mod q) -> tile_right N b R (k / q) (k mod q))).
  Proof.
    intros Hq2 HR Ht Hu. unfold visit_view. cbn [tv_tile_index view_of lget lookup list_lookup rbind]. unfold visited at 1.
    rewrite f_last. pose proof Hfit as (_&_&_&_&_&_&_&H0&H1&H2&H3).
    set (i := k / q). set (j := k mod q).
    assert (K00 : i = 0 /\ j = 0 <-> k = 0) by (unfold i, j; rewrite (div_mod_is k 0 0); lia).
    assert (K01 : i = 0 /\ j = q - 1 <-> k = q - 1) by (unfold i, j; rewrite (div_mod_is k 0 (q - 1)); lia).
    assert (K10 : i = q - 1 /\ j = 0 <-> k = (q - 1) * q) by (unfold i, j; rewrite (div_mod_is k (q - 1) 0); lia).
    assert (K11 : i = q - 1 /\ j = q - 1 <-> k = (q - 1) * q + (q - 1)) by (unfold i, j; rewrite (div_mod_is k (q - 1) (q - 1)); lia).
    assert (Hb : forall a c d e : nat, (a =? c) && (d =? e) = true <-> a = c /\ d = e).
    { intros a c d e. by rewrite andb_true_iff, !Nat.eqb_eq. }
    assert (Hb' : forall a c d e : nat, (a =? c) && (d =? e) = false <-> ~ (a = c /\ d = e)).
    { intros a c d e. rewrite <- Hb. by destruct ((a =? c) && (d =? e)). }
    assert (Hf : forall a c : nat, a <> c -> (a =? c) = false) by (intros a c Hn; by apply Nat.eqb_neq).
    destruct ((i =? 0) && (j =? 0)) eqn:E0; [|destruct ((i =? 0) && (j =? q - 1)) eqn:E1; [|destruct ((i =? q - 1) && (j =? 0)) eqn:E2;
      [|destruct ((i =? q - 1) && (j =? q - 1)) eqn:E3]]].
    - apply Hb in E0. pose proof E0 as [Ei Ej]. apply K00 in E0.
      destruct (compare_expected R t u i j (l_first L) ok HR Ht Hu) as (v&->&Hv); [lia|lia|by rewrite Ei, Ej|]. cbn [rbind]. unfold i, j; rewrite next_visit; fold i j.
      exists v. split.
      + rewrite (Hf k (q - 1)), (Hf k ((q - 1) * q)), (Hf k ((q - 1) * q + (q - 1))) by nia. rewrite !orb_false_r. destruct (Nat.eqb_spec k 0) as [_|Hn]; [by rewrite orb_true_r|done].
      + rewrite Hv. unfold is_corner. clear -Ei Ej. intuition.
    - apply Hb in E1. pose proof E1 as [Ei Ej]. apply K01 in E1.
      destruct (compare_expected R t u i j (l_first_end L) ok HR Ht Hu) as (v&->&Hv); [lia|lia|by rewrite Ei, Ej|]. cbn [rbind]. unfold i, j; rewrite next_visit; fold i j.
      exists v. split.
      + rewrite (Hf k 0), (Hf k ((q - 1) * q)), (Hf k ((q - 1) * q + (q - 1))) by nia. rewrite !orb_false_r. destruct (Nat.eqb_spec k (q - 1)) as [_|Hn]; [by rewrite orb_true_r|done].
      + rewrite Hv. unfold is_corner. clear -Ei Ej. intuition.
    - apply Hb in E2. pose proof E2 as [Ei Ej]. apply K10 in E2.
      destruct (compare_expected R t u i j (l_first_last L) ok HR Ht Hu) as (v&->&Hv); [lia|lia|by rewrite Ei, Ej|]. cbn [rbind]. unfold i, j; rewrite next_visit; fold i j.
      exists v. split.
      + rewrite (Hf k 0), (Hf k (q - 1)), (Hf k ((q - 1) * q + (q - 1))) by nia. rewrite !orb_false_r. destruct (Nat.eqb_spec k ((q - 1) * q)) as [_|Hn]; [by rewrite orb_true_r|done].
      + rewrite Hv. unfold is_corner. clear -Ei Ej. intuition.
    - apply Hb in E3. pose proof E3 as [Ei Ej]. apply K11 in E3.
      destruct (compare_expected R t u i j (l_bottom L) ok HR Ht Hu) as (v&->&Hv); [lia|lia|by rewrite Ei, Ej|]. cbn [rbind]. unfold i, j; rewrite next_visit; fold i j.
      exists v. split.
      + rewrite (Hf k 0), (Hf k (q - 1)), (Hf k ((q - 1) * q)) by nia. rewrite !orb_false_r. destruct (Nat.eqb_spec k ((q - 1) * q + (q - 1))) as [_|Hn]; [by rewrite orb_true_r|done].
      + rewrite Hv. unfold is_corner. clear -Ei Ej. intuition.
    - apply Hb' in E0, E1, E2, E3. cbn [rbind]. unfold i, j; rewrite next_visit; fold i j. eexists. split.
      + rewrite (Hf k 0), (Hf k (q - 1)), (Hf k ((q - 1) * q)), (Hf k ((q - 1) * q + (q - 1))) by (first [by rewrite <- K00|by rewrite <- K01|by rewrite <- K10|by rewrite <- K11]).
        rewrite !orb_false_r. reflexivity.
      + rewrite !andb_true_iff, !Nat.eqb_eq. unfold is_corner. fold i j. clear -E0 E1 E2 E3. tauto.
  Qed.

  Definition between (k n p : nat) : bool := (k <=? p) && (p <? k + n).
  Lemma between_step k n p : (k =? p) || between (k + 1) n p = between k (S n) p.
  Proof.
    unfold between. destruct (Nat.eqb_spec k p), (Nat.leb_spec (k + 1) p), (Nat.leb_spec k p), (Nat.ltb_spec p (k + 1 + n)), (Nat.ltb_spec p (k + S n));
      try reflexivity; lia.
  Qed.
  Lemma visits_spec R : 2 <= q -> length R = N * N -> forall ts k c0 c1 c2 c3 (ok : bool), Forall (fun t => within t [q; q]) ts ->
    exists ok', foldR ts (fun t s => let? v := tile_view_new t ti in visit_view L R v s) (visited k c0 c1 c2 c3 ok)
      = Ok (visited (k + length ts) (c0 || between k (length ts) 0) (c1 || between k (length ts) (q - 1))
              (c2 || between k (length ts) ((q - 1) * q)) (c3 || between k (length ts) ((q - 1) * q + (q - 1))) ok') /\
      (ok' = true <-> ok = true /\ forall m t, ts !! m = Some t ->
         t = [(k + m) / q; (k + m) mod q] /\
         (is_corner q ((k + m) / q) ((k + m) mod q) -> tile_right N b R ((k + m) / q) ((k + m) mod q))).
  Proof.
    intros Hq2 HR ts. induction ts as [|t ts IH]; intros k c0 c1 c2 c3 ok Hts; cbn [foldR length].
    - exists ok. split.
      + rewrite Nat.add_0_r. assert (Hb : forall p, between k 0 p = false).
        { intros p. unfold between. destruct (Nat.leb_spec k p), (Nat.ltb_spec p (k + 0)); try reflexivity; lia. }
        by rewrite !Hb, !orb_false_r.
      + split; [|by intros []]. intros Ho. split; [done|]. intros m t Hm. by rewrite lookup_nil in Hm.
    - apply Forall_cons in Hts as [Ht Hts].
      assert (exists t0 t1, t = [t0; t1] /\ t0 < q /\ t1 < q) as (t0&t1&->&H0&H1).
      { inversion Ht as [|t0 ? l0 ? Hl0 Hr0]; subst. inversion Hr0 as [|t1 ? l1 ? Hl1 Hr1]; subst. inversion Hr1; subst. by exists t0, t1. }
      rewrite tile_view_new_Ok by (done || apply ti_pos). cbn [rbind].
      destruct (visit_spec R t0 t1 k c0 c1 c2 c3 ok Hq2 HR H0 H1) as (v&->&Hv). cbn [rbind].
      destruct (IH (k + 1) (c0 || (k =? 0)) (c1 || (k =? q - 1)) (c2 || (k =? (q - 1) * q)) (c3 || (k =? (q - 1) * q + (q - 1))) v Hts) as (v'&->&Hv').
      exists v'. split.
      + rewrite <- !orb_assoc, !between_step. by replace (k + 1 + length ts) with (k + S (length ts)) by lia.
      + rewrite Hv', Hv. split.
        * intros [(Ho&E0&E1&Hc) Hr]. split; [done|]. intros [|m] t Hm; cbn in Hm.
          -- injection Hm as <-. rewrite Nat.add_0_r. split; [by rewrite <- E0, <- E1|done].
          -- specialize (Hr m t Hm). by replace (k + S m) with (k + 1 + m) by lia.
        * intros [Ho Hr]. split.
          -- destruct (Hr 0 [t0; t1] eq_refl) as [Et Hc]. rewrite Nat.add_0_r in Et, Hc. injection Et as -> ->. done.
          -- intros m t Hm. specialize (Hr (S m) t Hm). by replace (k + S m) with (k + 1 + m) in Hr by lia.
  Qed.
  Lemma corner_index p t u : t < q -> u < q -> p = t * q + u -> p / q = t /\ p mod q = u.
  Proof. intros Ht Hu E. by apply div_mod_is. Qed.
  Lemma iterate_verdict tiling R ts : 2 <= q -> tiling (counted_matrix N) ti = Ok R -> length R = N * N -> Forall (fun t => within t [q; q]) ts ->
    exists v, test_iterate tiling (visiting ts) L = Ok v /\ (v = true <-> row_by_row q ts /\ corners_right N b R).
  Proof.
    intros Hq2 Ht HR Hts. unfold test_iterate. rewrite Ht. cbn [rbind]. unfold visiting.
    assert (Hs : visit_start = visited 0 false false false false true).
    { unfold visit_start, visited. rewrite Nat.div_0_l, Nat.mod_0_l by lia. done. }
    rewrite Hs. destruct (visits_spec R Hq2 HR ts 0 false false false false true Hts) as (ok&->&Hok). cbn [rbind].
    eexists. split; [done|]. unfold visited. cbn [vi_ok case0 case1 case2 case3 orb]. cbn [Nat.add] in *.
    assert (Hb : forall p, between 0 (length ts) p = true <-> p < length ts).
    { intros p. unfold between. rewrite andb_true_iff, Nat.leb_le, Nat.ltb_lt. lia. }
    rewrite !andb_true_iff, !Hb, Hok. split.
    - intros [[[[[_ Hr] _] _] _] Hl].
      assert (Hlen : length ts = q * q).
      { destruct (Nat.lt_ge_cases (q * q) (length ts)) as [Hlt|Hge]; [|nia]. exfalso.
        destruct (lookup_lt_is_Some_2 ts (q * q) Hlt) as [t Hqq]. destruct (Hr _ _ Hqq) as [-> _].
        pose proof (Forall_lookup_1 _ _ _ _ Hts Hqq) as Hw. inversion Hw as [|? ? ? ? Hlt0]; subst.
        rewrite Nat.div_mul in Hlt0 by lia. lia. }
      split.
      + split; [done|]. intros k Hk. destruct (lookup_lt_is_Some_2 ts k ltac:(lia)) as [t Htk]. destruct (Hr _ _ Htk) as [-> _]. done.
      + assert (Hc : forall t u, t < q -> u < q -> is_corner q t u -> tile_right N b R t u).
        { intros t u Htq Huq Hcn. destruct (lookup_lt_is_Some_2 ts (t * q + u) ltac:(nia)) as [x Hx].
          destruct (Hr _ _ Hx) as [_ Hc]. destruct (corner_index (t * q + u) t u Htq Huq eq_refl) as [E1 E2]. rewrite E1, E2 in Hc. by apply Hc. }
        unfold corners_right. split_and!; apply Hc; try lia; split; lia.
    - intros [[Hlen Hrow] (C0&C1&C2&C3)]. split_and!; try nia. intros m t Hm.
      pose proof (lookup_lt_Some _ _ _ Hm) as Hlt. rewrite Hrow in Hm by lia. injection Hm as <-. split; [done|].
      intros [[->| ->] [->| ->]]; done.
  Qed.
End Verdict.
