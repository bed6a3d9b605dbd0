(** Proofs about src/reference_kernels/kernel_test.cpp. *)
From Verif Require Import Tools Tools2 MIter SpecIter PIter PIter2 PKernels PRecursive PLooped PPseudo MTiled SpecTiled PTiled PTiled2 PTiled5 PLevels MKTest.

Section Prep.
  Context {T : Type} `{NumOps T} (P : nat).
  Lemma kt_pad_ok N (M : list T) : length M = N * N ->
    exists Mp, kt_pad P N M = Ret Mp /\ length Mp = (N + P) * (N + P) /\
      forall i j, i < N + P -> j < N + P -> Mp !! (i * (N + P) + j) = Some (pent N M i j).
  Proof.
    intros HM. unfold kt_pad. set (W := N + P).
    rewrite (forS_tile2 (W * W) N N (fun i j => (i * W + j, fun _ => ent N M i j))); [|by rewrite replicate_length|].
    - eexists. split; [reflexivity|]. split; [by rewrite length_applyL, replicate_length|].
      intros i j Hi Hj. pose proof (mixed_lt W W i j Hi Hj). destruct (decide (i < N /\ j < N)) as [[Hi' Hj']|Hn].
      + rewrite pent_in by done.
        apply (tile2_lookup_in N N (fun i j => (i * W + j, fun _ : T => ent N M i j)) _ nzero i j); [done|done| |by apply lookup_replicate_2].
        cbn [fst]. intros i' k' ? ? E. apply mixed_inj in E; lia.
      + rewrite pent_out by done. rewrite applyL_lookup, contrib_tile2_none, lookup_replicate_2 by
          (done || cbn [fst]; intros i' k' ? ? E; apply mixed_inj in E; lia). done.
    - intros i j s Hi Hj Hs. rewrite (vget_lookup M (i * N + j) (ent N M i j)) by (by apply ent_lookup_sq). cbn [pbind].
      rewrite vset_ok; [done|]. rewrite Hs. apply mixed_lt; lia.
  Qed.
  Lemma kt_trans_ok N (M : list T) : length M = N * N ->
    exists Mp, kt_trans P N M = Ret Mp /\ length Mp = (N + P) * (N + P) /\
      forall i j, i < N + P -> j < N + P -> Mp !! (i * (N + P) + j) = Some (pent N M j i).
  Proof.
    intros HM. unfold kt_trans. set (W := N + P).
    rewrite (forS_tile2 (W * W) N N (fun i j => (i * W + j, fun _ => ent N M j i))); [|by rewrite replicate_length|].
    - eexists. split; [reflexivity|]. split; [by rewrite length_applyL, replicate_length|].
      intros i j Hi Hj. pose proof (mixed_lt W W i j Hi Hj). destruct (decide (i < N /\ j < N)) as [[Hi' Hj']|Hn].
      + rewrite pent_in by done.
        apply (tile2_lookup_in N N (fun i j => (i * W + j, fun _ : T => ent N M j i)) _ nzero i j); [done|done| |by apply lookup_replicate_2].
        cbn [fst]. intros i' k' ? ? E. apply mixed_inj in E; lia.
      + rewrite pent_out by tauto. rewrite applyL_lookup, contrib_tile2_none, lookup_replicate_2 by
          (done || cbn [fst]; intros i' k' ? ? E; apply mixed_inj in E; lia). done.
    - intros i j s Hi Hj Hs. rewrite (vget_lookup M (j * N + i) (ent N M j i)) by (by apply ent_lookup_sq). cbn [pbind].
      rewrite vset_ok; [done|]. rewrite Hs. apply mixed_lt; lia.
  Qed.
  Lemma run_copy_back (N : nat) (g : nat -> nat -> T) (m : mem T) :
    (forall i j, i < N -> j < N -> m !! ((idCp, i * (N + P) + j) : loc) = Some (VD (g i j))) ->
    exists C, run (kt_copy_back P N) m = Ok (C, m) /\ is_matrix N g C.
  Proof.
    intros Hm. unfold kt_copy_back.
    rewrite (run_forS1_applyL (N * N) _ _ (fun i => seq 0 N ≫= fun j => [(i * N + j, fun _ : T => g i j)])); [|by rewrite replicate_length|].
    - eexists. split; [reflexivity|]. split; [by rewrite length_applyL, replicate_length|].
      intros i j Hi Hj.
      apply (tile2_lookup_in N N (fun i j => (i * N + j, fun _ : T => g i j)) _ nzero i j); [done|done| |].
      + cbn [fst]. intros i' j' ? ? E. apply mixed_inj in E; lia.
      + apply lookup_replicate_2. by apply mixed_lt.
    - intros i s Hi Hs. apply (run_forS1_applyL (N * N)); [done|]. intros j s' Hj Hs'.
      rewrite run_bind, (run_rd _ _ (g i j)) by (by apply Hm). rewrite vset_ok; [done|]. rewrite Hs'. by apply mixed_lt.
  Qed.
  Lemma nopar_copy_back N : nopar (kt_copy_back (T := T) P N).
  Proof.
    unfold kt_copy_back. do 2 (apply nopar_forS; intros ? ?). apply nopar_bind; [apply nopar_rd|]. intros v. unfold vset. by case_match.
  Qed.
End Prep.

Section Block.
  Context {T : Type} `{NumOps T} (b : blocks).
  Notation LX := (L1_X b). Notation LY := (L1_Y b). Notation LK := (L1_K b).
  Context (W : nat) (At Bp : list T) (fA fB : nat -> nat -> T).
  Context (HW4 : (4 | W)) (LenA : length At = W * W).
  Context (HAt : forall k x, k < W -> x < W -> At !! (k * W + x) = Some (fA x k)).
  Context (HBp : forall k y, k < W -> y < W -> Bp !! (k * W + y) = Some (fB k y)).

  (** What is read as the element of A in row x, possibly beyond the row. *)
  Definition av (x k : nat) : T := default nzero (At !! (k * W + x)).
  Lemma av_in x k : k < W -> x < W -> av x k = fA x k.
  Proof. intros Hk Hx. unfold av. by rewrite HAt. Qed.
  Lemma vget_A x k : k + 1 < W -> x < W + W -> vget At (k * W + x) = Ret (av x k).
  Proof.
    clear HAt HBp HW4. intros Hk Hx. unfold av, vget. destruct (At !! (k * W + x)) eqn:E; [done|]. apply lookup_ge_None in E. rewrite LenA in E. nia.
  Qed.
  Definition b4 (k y : nat) : v4 := (fB k y, fB k (y + 1), fB k (y + 2), fB k (y + 3)).
  Lemma vload_B k y : (4 | y) -> y + 3 < W -> k < W -> vload_aligned Bp (k * W + y) = Ret (b4 k y).
  Proof.
    clear HAt. intros Hy Hy3 Hk. unfold vload_aligned.
    assert ((k * W + y) mod 4 = 0) as ->.
    { apply Nat.mod_divide; [lia|]. apply Nat.divide_add_r; [|exact Hy]. apply Nat.divide_mul_r. exact HW4. }
    cbn [negb Nat.eqb].
    assert (Hl : forall l, l < 4 -> Bp !! (k * W + y + l) = Some (fB k (y + l))) by
      (intros l Hl; rewrite <- Nat.add_assoc; apply HBp; lia).
    pose proof (Hl 0 ltac:(lia)) as H0. rewrite !Nat.add_0_r in H0.
    rewrite (vget_lookup _ _ _ H0). cbn [pbind]. rewrite (vget_lookup _ _ _ (Hl 1 ltac:(lia))). cbn [pbind].
    rewrite (vget_lookup _ _ _ (Hl 2 ltac:(lia))). cbn [pbind]. rewrite (vget_lookup _ _ _ (Hl 3 ltac:(lia))). done.
  Qed.
  Definition Dk (k0 x y n : nat) : T := dot (fun k => nmul (av x k) (fB k y)) (seq k0 n).
  Definition Dk4 (k0 x y n : nat) : v4 := (Dk k0 x y n, Dk k0 x (y + 1) n, Dk k0 x (y + 2) n, Dk k0 x (y + 3) n).
  Definition kt_acc (k0 x y n : nat) : kt_state :=
    (b4 (k0 + n) y, b4 (k0 + n) (y + 4),
     (Dk4 k0 (x + 0) y n, Dk4 k0 (x + 1) y n, Dk4 k0 (x + 2) y n, Dk4 k0 (x + 3) y n, Dk4 k0 (x + 4) y n,
      Dk4 k0 (x + 0) (y + 4) n, Dk4 k0 (x + 1) (y + 4) n, Dk4 k0 (x + 2) (y + 4) n, Dk4 k0 (x + 3) (y + 4) n, Dk4 k0 (x + 4) (y + 4) n)).
  Lemma kt_inner_fold k0 x y : (4 | y) -> y + 7 < W -> x + 4 < W + W ->
    forall n, k0 + n < W -> foldP (seq k0 n) (kt_inner W At Bp x y) (kt_acc k0 x y 0) = Ret (kt_acc k0 x y n).
  Proof.
    clear HAt. intros Hy Hy7 Hx4. assert (Hy4 : (4 | y + 4)) by (apply Nat.divide_add_r; [exact Hy|exists 1; reflexivity]).
    induction n as [|n IH]; intros Hn; [done|].
    rewrite seq_S, foldP_app by (left; eexists; apply IH; lia). rewrite IH by lia. cbn [pbind foldP].
    assert (kt_inner W At Bp x y (k0 + n) (kt_acc k0 x y n) = Ret (kt_acc k0 x y (S n))) as ->; [|done].
    unfold kt_inner, kt_acc.
    rewrite (vget_A (x + 0) (k0 + n)) by lia. cbn [pbind]. rewrite (vget_A (x + 1) (k0 + n)) by lia. cbn [pbind].
    rewrite (vget_A (x + 2) (k0 + n)) by lia. cbn [pbind]. rewrite (vget_A (x + 3) (k0 + n)) by lia. cbn [pbind].
    rewrite (vget_A (x + 4) (k0 + n)) by lia. cbn [pbind].
    replace (k0 + n + 1) with (k0 + S n) by lia.
    rewrite vload_B by (assumption || lia). cbn [pbind]. rewrite vload_B by (assumption || lia). cbn [pbind].
    unfold Dk4, Dk. rewrite !seq_S, !dot_snoc. done.
  Qed.
  Definition kt_us (x1 k0 x y : nat) : list (loc * (T -> T)) :=
    [0; 4] ≫= fun h => seq 0 5 ≫= fun r => if x + r <? x1 + LX then seq 0 4 ≫= fun l =>
      [((idCp, (x + r) * W + (y + h) + l) : loc, fun c => nadd c (Dk k0 (x + r) (y + h + l) LK))] else [].
  Lemma does_when c p us : does p us -> does (kt_when (T := T) c p) (if c then us else []).
  Proof. intros Hd. destruct c; [exact Hd|apply does_ret]. Qed.
  Lemma kt_block_does x1 k0 x y : (4 | y) -> y + 7 < W -> x < x1 + LX -> x + 4 < W + W -> k0 + LK < W ->
    does (kt_block b W At Bp x1 k0 x y) (kt_us x1 k0 x y).
  Proof.
    clear HAt. intros Hy Hy7 Hx1 Hx4 Hk. assert (Hy4 : (4 | y + 4)) by (apply Nat.divide_add_r; [exact Hy|exists 1; reflexivity]).
    unfold kt_block. rewrite vload_B by (assumption || lia). cbn [pbind]. rewrite vload_B by (assumption || lia). cbn [pbind].
    rewrite forS_step by lia. rewrite rng_1. replace (k0 + LK - k0) with LK by lia.
    assert ((b4 k0 y, b4 k0 (y + 4), (v4_zero, v4_zero, v4_zero, v4_zero, v4_zero, v4_zero, v4_zero, v4_zero, v4_zero, v4_zero)) = kt_acc k0 x y 0) as ->.
    { unfold kt_acc. rewrite Nat.add_0_r. done. }
    rewrite kt_inner_fold by (assumption || lia). cbn [pbind kt_acc].
    unfold kt_us. cbn [mbind list_bind seq app]. rewrite !app_nil_r. rewrite (proj2 (Nat.ltb_lt (x + 0) _)) by lia. rewrite !Nat.add_0_r.
    rewrite <- !app_assoc.
    apply (does_bind _ _ [_; _; _; _] _); [exact (does_add4 _ _ _)|].
    apply does_bind; [apply (does_when _ _ [_; _; _; _]); exact (does_add4 _ _ _)|].
    apply does_bind; [apply (does_when _ _ [_; _; _; _]); exact (does_add4 _ _ _)|].
    apply does_bind; [apply (does_when _ _ [_; _; _; _]); exact (does_add4 _ _ _)|].
    apply does_bind; [apply (does_when _ _ [_; _; _; _]); exact (does_add4 _ _ _)|].
    apply (does_bind _ _ [_; _; _; _] _); [exact (does_add4 _ _ _)|].
    apply does_bind; [apply (does_when _ _ [_; _; _; _]); exact (does_add4 _ _ _)|].
    apply does_bind; [apply (does_when _ _ [_; _; _; _]); exact (does_add4 _ _ _)|].
    apply does_bind; [apply (does_when _ _ [_; _; _; _]); exact (does_add4 _ _ _)|].
    apply (does_when _ _ [_; _; _; _]); exact (does_add4 _ _ _).
  Qed.

  Lemma kt_us_elem x1 k0 x y u : u ∈ kt_us x1 k0 x y ->
    exists r c f, u = (((idCp, r * W + c) : loc), f) /\ x <= r < x + 5 /\ r < x1 + LX /\ y <= c < y + 8.
  Proof.
    clear. unfold kt_us. intros (h&(r&Hu&Hr%elem_of_seq)%elem_of_list_bind&Hh)%elem_of_list_bind.
    destruct (x + r <? x1 + LX) eqn:E; [|by apply elem_of_nil in Hu]. apply Nat.ltb_lt in E.
    apply elem_of_list_bind in Hu as (l&->%elem_of_list_singleton&Hl%elem_of_seq).
    assert (h <= 4) by (apply elem_of_cons in Hh as [->|Hh]; [lia|]; apply elem_of_list_singleton in Hh as ->; lia).
    exists (x + r), (y + h + l). eexists. split; [|lia]. rewrite <- !Nat.add_assoc. reflexivity.
  Qed.
  Lemma contrib_kt_us x1 k0 x y i j : y + 7 < W -> j < W ->
    contrib ((idCp, i * W + j) : loc) (kt_us x1 k0 x y) =
    if decide (x <= i < x + 5 /\ i < x1 + LX) then if decide (y <= j < y + 8) then [fun v => nadd v (Dk k0 i j LK)] else [] else [].
  Proof.
    clear HAt HBp HW4 LenA. intros Hy Hj.
    assert (Hout : ~ ((x <= i < x + 5 /\ i < x1 + LX) /\ y <= j < y + 8) -> contrib ((idCp, i * W + j) : loc) (kt_us x1 k0 x y) = []).
    { intros Hn. apply contrib_none. intros u (r&c&f&->&Hr&Hr'&Hc)%kt_us_elem. cbn [fst]. intros [= E].
      apply mixed_inj in E as [-> ->]; [|lia..]. apply Hn. lia. }
    destruct (decide (x <= i < x + 5 /\ i < x1 + LX)) as [[Hi Hi']|]; [|apply Hout; tauto].
    destruct (decide (y <= j < y + 8)) as [Hj'|]; [|apply Hout; tauto]. clear Hout.
    unfold kt_us. pose proof (Nat.div_mod (j - y) 4 ltac:(lia)). pose proof (Nat.mod_upper_bound (j - y) 4 ltac:(lia)).
    rewrite contrib_bind, (bind_select _ _ ((j - y) / 4 * 4)).
    + rewrite contrib_bind, (bind_select _ _ (i - x)); [|apply NoDup_seq|apply elem_of_seq; lia|].
      * replace (x + (i - x)) with i by lia. rewrite (proj2 (Nat.ltb_lt _ _)) by done.
        rewrite contrib_bind, (bind_select _ _ ((j - y) mod 4)); [|apply NoDup_seq|apply elem_of_seq; lia|].
        -- replace (y + (j - y) / 4 * 4 + (j - y) mod 4) with j by lia.
           replace (i * W + (y + (j - y) / 4 * 4) + (j - y) mod 4) with (i * W + j) by lia.
           apply contrib_single_eq.
        -- intros l Hl%elem_of_seq Hne. apply contrib_single_ne. intros [= E].
           assert (i * W + (y + (j - y) / 4 * 4 + l) = i * W + j) as E' by lia. apply mixed_inj in E'; lia.
      * intros r Hr%elem_of_seq Hne. destruct (x + r <? x1 + LX); [|done]. rewrite contrib_bind. apply bind_nil. intros l Hl%elem_of_seq.
        apply contrib_single_ne. intros [= E].
        assert ((x + r) * W + (y + (j - y) / 4 * 4 + l) = i * W + j) as E' by lia. apply mixed_inj in E'; lia.
    + repeat constructor; set_solver.
    + assert ((j - y) / 4 < 2) by (apply Nat.div_lt_upper_bound; lia).
      destruct ((j - y) / 4) as [|[|?]]; [left|right; left|lia].
    + intros h Hh Hne. assert (h = 0 \/ h = 4) as Hh' by set_solver.
      rewrite contrib_bind. apply bind_nil. intros r Hr%elem_of_seq. destruct (x + r <? x1 + LX); [|done].
      rewrite contrib_bind. apply bind_nil. intros l Hl%elem_of_seq.
      apply contrib_single_ne. intros [= E].
      assert ((x + r) * W + (y + h + l) = i * W + j) as E' by lia. apply mixed_inj in E'; [|lia|lia].
      apply Hne. assert (j - y = h / 4 * 4 + l) as ->; [|rewrite Nat.div_add_l by lia; rewrite (Nat.div_small l) by lia];
        destruct Hh' as [-> | ->]; cbn; lia.
  Qed.

  Definition kt_l1_us (x1 y1 k1 : nat) : list (loc * (T -> T)) :=
    rng x1 (x1 + LX) 5 ≫= fun x => rng y1 (y1 + LY) 8 ≫= fun y => kt_us x1 k1 x y.
  Context (H8 : (8 | LY)).
  Lemma y_in y1 y : (LY | y1) -> y1 + LY <= W -> y ∈ rng y1 (y1 + LY) 8 -> (4 | y) /\ y + 7 < W.
  Proof.
    clear HAt HBp HW4 LenA. intros D1 Hy1 Hy. destruct H8 as [n8 E8]. destruct D1 as [q1 ->]. rewrite E8 in Hy.
    apply rng_in in Hy as (Hy&Hy'&q&->); [|lia]. split; [|lia].
    exists (q1 * n8 * 2 + q * 2). lia.
  Qed.
  Lemma kt_l1_does x1 y1 k1 : (LY | y1) -> x1 + LX <= W -> y1 + LY <= W -> k1 + LK < W ->
    does (kt_l1 b W At Bp x1 y1 k1) (kt_l1_us x1 y1 k1).
  Proof.
    clear HAt. intros Dy Hx Hy Hk. unfold kt_l1, kt_l1_us. apply does_forP; [lia|]. intros x Hx5%rng_bounds.
    apply does_forP; [lia|]. intros y Hy8. destruct (y_in y1 y Dy Hy Hy8) as [H4 H7]. apply kt_block_does; try assumption; lia.
  Qed.
  Lemma contrib_kt_l1 x1 y1 k1 i j : (LY | y1) -> x1 + LX <= W -> y1 + LY <= W -> k1 + LK < W -> i < W -> j < W ->
    contrib ((idCp, i * W + j) : loc) (kt_l1_us x1 y1 k1) =
    if decide (x1 <= i < x1 + LX) then if decide (y1 <= j < y1 + LY) then [fun v => nadd v (chunk b fA fB i j k1)] else [] else [].
  Proof.
    intros Dy Hx Hy Hk Hi Hj. unfold kt_l1_us. rewrite contrib_bind. apply sel_ragged; [lia|]. intros x Hx5.
    rewrite contrib_bind. pose proof H8 as [n8 E8].
    transitivity (if decide (y1 <= j < y1 + n8 * 8) then if decide (x <= i < x + 5 /\ i < x1 + LX) then [fun v => nadd v (chunk b fA fB i j k1)] else [] else []).
    - replace (y1 + LY) with (y1 + n8 * 8) in * by lia. apply sel_range; [lia|]. intros q Hq.
      rewrite contrib_kt_us by lia.
      assert (Dk k1 i j LK = chunk b fA fB i j k1) as ->; [|repeat case_decide; done].
      unfold Dk, chunk. apply dot_ext. intros k Hk'%elem_of_seq. by rewrite av_in by lia.
    - rewrite <- E8. destruct (decide (y1 <= j < y1 + LY)), (decide (x <= i < x + 5 /\ i < x1 + LX)); done.
  Qed.
  Lemma kt_l1_us_elem x1 y1 k1 u : (LY | y1) -> y1 + LY <= W -> u ∈ kt_l1_us x1 y1 k1 ->
    exists i j, u.1 = (idCp, i * W + j) /\ x1 <= i < x1 + LX /\ y1 <= j < y1 + LY.
  Proof.
    clear HAt HBp HW4 LenA. intros Dy Hy. unfold kt_l1_us. intros (x&(y&(r&c&f&->&Hr&Hr'&Hc)%kt_us_elem&Hy8)%elem_of_list_bind&Hx5%rng_bounds)%elem_of_list_bind.
    exists r, c. split; [done|]. pose proof H8 as [n8 E8]. rewrite E8 in Hy8. apply rng_in in Hy8 as (?&?&_); lia.
  Qed.
  (** Footprint *)
  Definition Wk (x y wx wy : nat) (l : loc) : Prop := exists i j, l = ((idCp, i * W + j) : loc) /\ x <= i < x + wx /\ y <= j < y + wy.
  Lemma simple_kt_inner x y k s : simple (kt_inner W At Bp x y k s).
  Proof.
    clear. destruct s as [[s1 s2] [[[[[[[[[c0 c1] c2] c3] c4] c5] c6] c7] c8] c9]]. unfold kt_inner.
    do 5 (apply simple_bind; [apply simple_vget|]; intros ?). do 2 (apply simple_bind; [apply simple_vload|]; intros ?). apply simple_ret.
  Qed.
  Lemma nopar_when c (p : prog T unit) : nopar p -> nopar (kt_when c p).
  Proof. clear. by destruct c. Qed.
  Lemma nopar_kt_l1 x1 y1 k1 : nopar (kt_l1 b W At Bp x1 y1 k1).
  Proof.
    clear. unfold kt_l1. do 2 (apply nopar_forS; intros ? _). unfold kt_block.
    do 2 (apply nopar_bind; [apply simple_nopar, simple_vload|]; intros ?).
    apply nopar_bind; [apply simple_nopar, simple_forS; intros ? ?; apply simple_kt_inner|].
    intros [[s1 s2] [[[[[[[[[c0 c1] c2] c3] c4] c5] c6] c7] c8] c9]].
    apply nopar_bind; [apply nopar_add4|]; intros ?. do 4 (apply nopar_bind; [apply nopar_when, nopar_add4|]; intros ?).
    apply nopar_bind; [apply nopar_add4|]; intros ?. do 3 (apply nopar_bind; [apply nopar_when, nopar_add4|]; intros ?).
    apply nopar_when, nopar_add4.
  Qed.
  Lemma acc_when (R Q : loc -> Prop) c (p : prog T unit) : (c = true -> acc_in R Q p) -> acc_in R Q (kt_when c p).
  Proof. clear. destruct c; [auto|done]. Qed.
  Lemma acc_kt_l1 (R : loc -> Prop) x1 y1 k1 : acc_in R (Wk x1 y1 LX LY) (kt_l1 b W At Bp x1 y1 k1).
  Proof.
    clear HAt HBp HW4 LenA. unfold kt_l1. apply acc_in_forS. intros x _ Hx _. apply acc_in_forS. intros y _ Hy Hy'.
    destruct Hy' as [q Hq]; [lia|]. pose proof H8 as [n8 E8].
    assert (y + 7 < y1 + LY). { subst y. pose proof (mul_next q 8 n8 ltac:(lia)). lia. }
    unfold kt_block. do 2 (apply acc_in_bind; [apply simple_acc, simple_vload|]; intros ?).
    apply acc_in_bind; [apply simple_acc, simple_forS; intros ? ?; apply simple_kt_inner|].
    intros [[s1 s2] [[[[[[[[[c0 c1] c2] c3] c4] c5] c6] c7] c8] c9]].
    assert (HW1 : forall r v, x + r < x1 + LX -> acc_in R (Wk x1 y1 LX LY) (add4 idCp ((x + r) * W + y) v)).
    { intros r v Hr. apply acc_add4. intros l Hl. exists (x + r), (y + l). rewrite Nat.add_assoc. split; [done|lia]. }
    assert (HW2 : forall r v, x + r < x1 + LX -> acc_in R (Wk x1 y1 LX LY) (add4 idCp ((x + r) * W + (y + 4)) v)).
    { intros r v Hr. apply acc_add4. intros l Hl. exists (x + r), (y + 4 + l). split; [f_equal; lia|lia]. }
    apply acc_in_bind; [apply HW1; lia|]; intros ?. do 4 (apply acc_in_bind; [apply acc_when; intros ?%Nat.ltb_lt; by apply HW1|]; intros ?).
    apply acc_in_bind; [apply HW2; lia|]; intros ?. do 3 (apply acc_in_bind; [apply acc_when; intros ?%Nat.ltb_lt; by apply HW2|]; intros ?).
    apply acc_when; intros ?%Nat.ltb_lt; by apply HW2.
  Qed.
End Block.

Section KT.
  Context {T : Type} `{NumOps T} (b : blocks) (Hpos : all_positive b) (Hdiv : levels_divide b) (H8 : (8 | L1_Y b)).
  Context (P N : nat).
  Notation LX := (L1_X b). Notation LY := (L1_Y b). Notation LK := (L1_K b). Notation W := (N + P).
  Notation nx := (cdiv N (L3_X b)). Notation ny := (cdiv N (L3_Y b)). Notation nk := (cdiv N (L3_K b)).
  Lemma kt_task_nest (At Bp : list T) x3 y3 :
    kt_task b P N At Bp x3 y3 = nest b nk (fun x1 y1 k1 => kt_l1 b W At Bp x1 y1 k1) x3 y3.
  Proof.
    destruct Hpos as ((P1&P2&P3)&_). unfold kt_task, nest, forP. rewrite (forS_step 0 N), (forS_step 0 (nk * L3_K b)) by done. rewrite (rng_round N) by done. reflexivity.
  Qed.
  Lemma kt_tasks_eq : (rng 0 N (L3_X b) ≫= fun l3_x => rng 0 N (L3_Y b) ≫= fun l3_y => [(l3_x, l3_y)]) = ltasks b nx ny.
  Proof.
    destruct Hpos as ((P1&P2&P3)&_). unfold ltasks. rewrite (rng_round N (L3_X b)) by done. rewrite (rng_round N (L3_Y b)) by done. done.
  Qed.

  Section Correct.
    Context (A B : list T) (HA : length A = N * N) (HB : length B = N * N).
    Context (HW4 : (4 | W)) (HRX : SpecTiled.round_up N (L3_X b) <= W) (HRY : SpecTiled.round_up N (L3_Y b) <= W) (HRK : SpecTiled.round_up N (L3_K b) < W).
    Notation X := (nx * L3_X b). Notation Y := (ny * L3_Y b). Notation K := (nk * L3_K b).
    Notation cellk := (fun i j : nat => ((idCp, i * W + j) : loc)).
    Context (At Bp : list T) (LenA : length At = W * W).
    Context (HAt : forall k x, k < W -> x < W -> At !! (k * W + x) = Some (pent N A x k)).
    Context (HBp : forall k y, k < W -> y < W -> Bp !! (k * W + y) = Some (pent N B k y)).
    Definition us1k (x1 y1 k1 : nat) : list (loc * (T -> T)) := kt_l1_us b W At (pent N B) x1 y1 k1.
    Definition csk (i j k1 : nat) : list (T -> T) := [fun v => nadd v (chunk b (pent N A) (pent N B) i j k1)].
    Lemma bounds : X <= W /\ Y <= W /\ K < W.
    Proof. exact (conj HRX (conj HRY HRK)). Qed.
    Lemma inside_bounds x3 y3 x1 y1 k1 : x3 + L3_X b <= X -> y3 + L3_Y b <= Y -> inside b nk x3 y3 x1 y1 k1 ->
      (LY | y1) /\ x1 + LX <= W /\ y1 + LY <= W /\ k1 + LK < W.
    Proof.
      clear HA HB HAt HBp. pose proof bounds as (?&?&?). intros Hx Hy ((_&?&?)&(Dy&?&?)&_&?). split; [exact Dy|lia].
    Qed.
    Definition ktrep_us : list (loc * (T -> T)) :=
      (seq 0 (W * W) ≫= fun p => [((idCp, p) : loc, fun _ => nzero)]) ++ (ltasks b nx ny ≫= fun t => nest_us b nk us1k t.1 t.2).
    Definition ktrep : prog T unit :=
      forP 0 (W * W) 1 (fun i => wr idCp i nzero) ;;;
      parL (ltasks b nx ny) (fun t => kt_task b P N At Bp t.1 t.2).
    Lemma ktrep_does : does ktrep ktrep_us.
    Proof.
      clear HA HB. unfold ktrep, ktrep_us. apply does_bind.
      - replace (seq 0 (W * W)) with (rng 0 (W * W) 1) by (by rewrite rng_1, Nat.sub_0_r).
        apply does_forP; [lia|]. intros i _. apply does_wr.
      - apply does_parL. intros t Ht. destruct (ltasks_div b Hpos Hdiv nx ny t Ht) as (Dx&Dy&Bx&By).
        rewrite kt_task_nest. apply (nest_does b Hpos Hdiv nk); [exact Dx|exact Dy|].
        intros x1 y1 k1 Hin. destruct (inside_bounds _ _ _ _ _ Bx By Hin) as (Dy1&B1&B2&B3).
        apply kt_l1_does; assumption.
    Qed.
    Lemma ktrep_contrib i j : i < X -> j < Y ->
      contrib (cellk i j) ktrep_us = (fun _ => nzero) :: (rng 0 K LK ≫= csk i j).
    Proof.
      clear HA HB. intros Hi Hj. pose proof bounds as (?&?&?). unfold ktrep_us. rewrite contrib_app.
      rewrite (ltasks_contrib b Hpos Hdiv nx ny nk _ i j _ (csk i j)); [|done|done|].
      - pose proof (mixed_lt W W i j ltac:(lia) ltac:(lia)) as Hp.
        rewrite contrib_bind, (bind_select _ _ (i * W + j)); [|apply NoDup_seq|apply elem_of_seq; lia|].
        + rewrite contrib_single_eq. done.
        + intros p' _ Hne. apply contrib_single_ne. intros [= E]. done.
      - intros x1 y1 k1 x3 y3 Bx By Hin. destruct (inside_bounds _ _ _ _ _ Bx By Hin) as (Dy1&B1&B2&B3).
        apply (contrib_kt_l1 b W At (pent N A)); try assumption; lia.
    Qed.
    Lemma ktrep_elem u : u ∈ ktrep_us -> exists p, u.1 = (idCp, p) /\ p < W * W.
    Proof.
      clear HA HB HAt HBp. intros [Hu|Hu]%elem_of_app.
      - apply elem_of_list_bind in Hu as (p&->%elem_of_list_singleton&Hp%elem_of_seq). exists p. split; [done|lia].
      - apply elem_of_list_bind in Hu as (t&Hu&Ht). destruct (ltasks_div b Hpos Hdiv nx ny t Ht) as (Dx&Dy&Bx&By).
        apply (nest_us_elem b Hpos Hdiv nk) in Hu as (x1&y1&k1&Hin&Hu); [|exact Dx|exact Dy].
        destruct (inside_bounds _ _ _ _ _ Bx By Hin) as (Dy1&B1&B2&B3).
        destruct (kt_l1_us_elem b W At (pent N B) H8 x1 y1 k1 u Dy1 B2 Hu) as (i&j&E&Hi&Hj).
        exists (i * W + j). split; [exact E|]. apply mixed_lt; lia.
    Qed.
    Lemma kt_value i j : fold_upd (rng 0 K LK ≫= csk i j) nzero = tiled_entry b N A B i j.
    Proof.
      clear HA HB HAt HBp. destruct Hpos as (_&_&(_&_&P9)). destruct Hdiv as ((_&_&D3)&(_&_&D6)).
      destruct (Nat.divide_trans _ _ _ D3 D6) as [q Eq].
      unfold tiled_entry, dot_chunks, SpecTiled.round_up, csk. rewrite bind_ret_fmap.
      replace K with (nk * q * LK) by (rewrite Eq; lia). rewrite rng_0_exact, Nat.div_mul by lia. rewrite <- list_fmap_compose.
      assert (forall ks z, fold_upd ((fun (k : nat) (v : T) => nadd v (chunk b (pent N A) (pent N B) i j k)) ∘ (fun q => q * LK) <$> ks) z =
        foldl (fun acc q => nadd acc (chunk b (pent N A) (pent N B) i j (q * LK))) z ks) as Hf; [|apply Hf].
      induction ks as [|q' ks IH]; intros z; [done|]. cbn [fmap list_fmap foldl]. rewrite <- IH. done.
    Qed.
    Lemma ktrep_drf : drf ktrep.
    Proof.
      clear HA HB HAt HBp. pose proof bounds as (?&?&?). pose proof Hpos as ((P1&P2&P3)&_). unfold ktrep. apply drf_bind.
      { apply drf_forS. intros i _ _ _. apply drf_wr. }
      intros _. apply (drf_parL _ _ (fun _ _ => False) (fun t => Wk W t.1 t.2 (L3_X b) (L3_Y b))).
      - by apply ltasks_NoDup.
      - intros t Ht. destruct (ltasks_div b Hpos Hdiv nx ny t Ht) as (Dx&Dy&_). rewrite kt_task_nest.
        apply nopar_drf. apply (nest_closed b Hpos Hdiv nk nopar); [exact Dx|exact Dy| |].
        + intros lo hi st f Hst Hf. unfold forP. rewrite forS_step by done.
          assert (forall l s, (forall x, x ∈ l -> nopar (f x)) -> nopar (foldP l (fun x _ => f x) s)) as HN; [|by apply HN].
          clear. induction l as [|x l IH]; intros s Hl; [done|]. cbn [foldP]. apply nopar_bind; [apply Hl, elem_of_cons; by left|].
          intros s'. apply IH. intros y Hy. apply Hl, elem_of_cons. by right.
        + intros x1 y1 k1 _. apply nopar_kt_l1.
      - intros t Ht. destruct (ltasks_div b Hpos Hdiv nx ny t Ht) as (Dx&Dy&_). rewrite kt_task_nest.
        apply (nest_closed b Hpos Hdiv nk (acc_in _ _)); [exact Dx|exact Dy| |].
        + intros lo hi st f Hst Hf. unfold forP. rewrite forS_step by done. apply acc_in_foldP. intros x _ Hx. by apply Hf.
        + intros x1 y1 k1 ((_&?&?)&(_&?&?)&_). eapply acc_in_mono; [| |apply (acc_kt_l1 b W At Bp H8)]; [intros l Hl; left; exact Hl|].
          intros l (i&j&->&?&?). exists i, j. split; [done|lia].
      - intros t t' l Ht Ht' Hne.
        destruct (ltasks_elem b Hpos nx ny t Ht) as (a&c&->&Ha&Hc). destruct (ltasks_elem b Hpos nx ny t' Ht') as (a'&c'&->&Ha'&Hc'). cbn [fst snd].
        intros (i&j&->&Hi&Hj) [[]|(i'&j'&E&Hi'&Hj')]. injection E as E.
        assert (c * L3_Y b + L3_Y b <= Y) by nia. assert (c' * L3_Y b + L3_Y b <= Y) by nia.
        apply mixed_inj in E as [-> ->]; [|lia|lia].
        apply in_block in Hi, Hj, Hi', Hj'; [|done..]. apply Hne. subst. done.
    Qed.
    Lemma ktreps_run (reps : nat) (m : mem T) :
      (forall p, p < W * W -> m !! ((idCp, p) : loc) = Some (VD nzero)) ->
      exists m', run (forP 0 reps 1 (fun _ => ktrep)) m = Ok (tt, m') /\
        forall i j, i < N -> j < N -> m' !! cellk i j = Some (VD (if reps =? 0 then nzero else tiled_entry b N A B i j)).
    Proof.
      clear HA HB. intros Hm. pose proof bounds as (?&?&?). pose proof Hpos as ((P1&P2&P3)&_).
      assert (Hd : does (forP 0 reps 1 (fun _ => ktrep)) (rng 0 reps 1 ≫= fun _ => ktrep_us)).
      { apply does_forP; [lia|]. intros _ _. apply ktrep_does. }
      assert (Hp : present (rng 0 reps 1 ≫= fun _ => ktrep_us) m).
      { intros u (x&(p&E&Hp)%ktrep_elem&_)%elem_of_list_bind. exists nzero. etransitivity; [|exact (Hm p Hp)]. f_equal. exact E. }
      eexists. split; [exact (Hd m Hp)|]. intros i j Hi Hj. rewrite applyM_lookup.
      pose proof (round_up_ge N (L3_X b) P1) as G1. pose proof (round_up_ge N (L3_Y b) P2) as G2. unfold SpecTiled.round_up in *.
      rewrite Hm by (apply mixed_lt; lia).
      cbn [fmap option_fmap option_map liftD]. do 2 f_equal. rewrite contrib_bind, rng_1, Nat.sub_0_r.
      destruct reps as [|r]; [done|]. cbn [Nat.eqb]. rewrite seq_S, bind_app, fold_upd_app. cbn [mbind list_bind]. rewrite app_nil_r, ktrep_contrib by lia.
      rewrite <- kt_value. done.
    Qed.
  End Correct.

  Lemma kt_eq (A B : list T) transposed reps : length A = N * N -> length B = N * N -> exists At Bp, length At = W * W /\ length Bp = W * W /\
    (forall k x, k < W -> x < W -> At !! (k * W + x) = Some (pent N A x k)) /\
    (forall k y, k < W -> y < W -> Bp !! (k * W + y) = Some (pent N B k y)) /\
    kernel_test_matrix_multiply b P N A B transposed reps =
      (valloc idCp (W * W) nzero ;;; forP 0 reps 1 (fun _ => ktrep At Bp) ;;; kt_copy_back P N).
  Proof.
    intros HA HB. destruct (kt_pad_ok P N A HA) as (Ap&EA&_&_). destruct (kt_trans_ok P N A HA) as (At&EAt&LAt&HAt).
    destruct (kt_pad_ok P N B HB) as (Bp&EB&LBp&HBp). exists At, Bp. split_and!; [done..|].
    unfold kernel_test_matrix_multiply. rewrite EA. cbn [pbind]. rewrite EAt. cbn [pbind]. rewrite EB. cbn [pbind]. rewrite kt_tasks_eq. done.
  Qed.
  Lemma kt_run (A B : list T) transposed reps : length A = N * N -> length B = N * N ->
    (4 | W) -> SpecTiled.round_up N (L3_X b) <= W -> SpecTiled.round_up N (L3_Y b) <= W -> SpecTiled.round_up N (L3_K b) < W ->
    drf (kernel_test_matrix_multiply b P N A B transposed reps) /\
    exists C m, run (kernel_test_matrix_multiply b P N A B transposed reps) ∅ = Ok (C, m) /\
      is_matrix N (if reps =? 0 then fun _ _ => nzero else tiled_entry b N A B) C.
  Proof.
    intros HA HB H4 RX RY RK. destruct (kt_eq A B transposed reps HA HB) as (At&Bp&LAt&LBp&HAt&HBp&->). split.
    - apply drf_bind; [apply drf_valloc|]. intros _. apply drf_bind.
      + apply drf_forS. intros i _ _ _. by apply ktrep_drf.
      + intros _. apply nopar_drf, nopar_copy_back.
    - destruct (run_valloc idCp (W * W) (nzero : T) ∅) as (m1&Hr1&H1'&_).
      destruct (ktreps_run A B H4 RX RY RK At Bp LAt HAt HBp reps m1 H1') as (m2&Hr2&H2').
      destruct (run_copy_back P N (if reps =? 0 then fun _ _ => nzero else tiled_entry b N A B) m2) as (C&Hr3&HC).
      + intros i j Hi Hj. rewrite H2' by done. by destruct (reps =? 0).
      + exists C, m2. split; [|done]. by rewrite run_bind, Hr1, run_bind, Hr2.
  Qed.

  (** Without repetitions nothing can go wrong. *)
  Lemma kt_run_zero (A B : list T) transposed : length A = N * N -> length B = N * N ->
    always (kernel_test_matrix_multiply b P N A B transposed 0) (is_zero N).
  Proof.
    intros HA HB. destruct (kt_eq A B transposed 0 HA HB) as (At&Bp&_&_&_&_&->).
    destruct (run_valloc idCp (W * W) (nzero : T) ∅) as (m1&Hr1&H1'&_).
    destruct (run_copy_back P N (fun _ _ => nzero) m1) as (C&Hr3&HC).
    { intros i j Hi Hj. apply H1'. apply mixed_lt; lia. }
    eapply always_intro; [| |exact HC].
    - apply drf_bind; [apply drf_valloc|]. intros _. apply drf_bind; [done|]. intros _. apply nopar_drf, nopar_copy_back.
    - rewrite run_bind, Hr1. exact Hr3.
  Qed.

  (** ** Failures *)
  Section Fails.
    Context (At Bp : list T) (LenA : length At = W * W) (LenB : length Bp = W * W).
    Notation E := (fun e => e = EOob).
    Lemma errD_vload i : (4 | i) -> errD E (vload_aligned Bp i).
    Proof.
      clear. intros Hi. unfold vload_aligned. assert (i mod 4 = 0) as -> by (apply Nat.mod_divide; [lia|exact Hi]). cbn [negb Nat.eqb].
      do 4 (apply errD_bind; [by apply errD_vget|]; intros ?). done.
    Qed.
    Lemma errD_add4 a i (v : v4 (T := T)) : errD E (add4 a i v).
    Proof.
      clear. unfold add4, load4. apply errD_bind.
      - do 4 (apply errD_bind; [by apply errD_rd|]; intros ?). done.
      - intros [[[r0 r1] r2] r3]. destruct v as [[[v0 v1] v2] v3]. unfold store4, v4_add.
        do 3 (apply errD_bind; [by apply errD_wr|]; intros ?). by apply errD_wr.
    Qed.
    Lemma errD_when c (p : prog T unit) : errD E p -> errD E (kt_when c p).
    Proof. clear. by destruct c. Qed.
    Context (HW4 : (4 | W)).
    Lemma div4 k y : (4 | y) -> (4 | k * W + y) /\ (4 | k * W + (y + 4)).
    Proof.
      clear LenA LenB. intros Hy. assert (Hk : (4 | k * W)) by (apply Nat.divide_mul_r; exact HW4).
      split; (apply Nat.divide_add_r; [exact Hk|]); [exact Hy|]. apply Nat.divide_add_r; [exact Hy|exists 1; reflexivity].
    Qed.
    Lemma errD_inner x y k s : (4 | y) -> errD E (kt_inner W At Bp x y k s).
    Proof.
      clear LenA LenB. intros Hy. destruct s as [[s1 s2] [[[[[[[[[c0 c1] c2] c3] c4] c5] c6] c7] c8] c9]]. unfold kt_inner.
      destruct (div4 (k + 1) y Hy) as [D1 D2].
      do 5 (apply errD_bind; [by apply errD_vget|]; intros ?).
      apply errD_bind; [apply errD_vload; exact D1|]; intros ?. apply errD_bind; [apply errD_vload; exact D2|]; intros ?. done.
    Qed.
    Lemma errD_stores x1 x y (s : kt_state (T := T)) :
      errD E (let '(_, _, (acc_11, acc_21, acc_31, acc_41, acc_51, acc_12, acc_22, acc_32, acc_42, acc_52)) := s in
        add4 idCp ((x + 0) * W + y) acc_11 ;;;
        kt_when (x + 1 <? x1 + L1_X b) (add4 idCp ((x + 1) * W + y) acc_21) ;;;
        kt_when (x + 2 <? x1 + L1_X b) (add4 idCp ((x + 2) * W + y) acc_31) ;;;
        kt_when (x + 3 <? x1 + L1_X b) (add4 idCp ((x + 3) * W + y) acc_41) ;;;
        kt_when (x + 4 <? x1 + L1_X b) (add4 idCp ((x + 4) * W + y) acc_51) ;;;
        add4 idCp ((x + 0) * W + (y + 4)) acc_12 ;;;
        kt_when (x + 1 <? x1 + L1_X b) (add4 idCp ((x + 1) * W + (y + 4)) acc_22) ;;;
        kt_when (x + 2 <? x1 + L1_X b) (add4 idCp ((x + 2) * W + (y + 4)) acc_32) ;;;
        kt_when (x + 3 <? x1 + L1_X b) (add4 idCp ((x + 3) * W + (y + 4)) acc_42) ;;;
        kt_when (x + 4 <? x1 + L1_X b) (add4 idCp ((x + 4) * W + (y + 4)) acc_52)).
    Proof.
      clear. destruct s as [[s1 s2] [[[[[[[[[c0 c1] c2] c3] c4] c5] c6] c7] c8] c9]].
      apply errD_bind; [apply errD_add4|]; intros ?. do 4 (apply errD_bind; [apply errD_when, errD_add4|]; intros ?).
      apply errD_bind; [apply errD_add4|]; intros ?. do 3 (apply errD_bind; [apply errD_when, errD_add4|]; intros ?).
      apply errD_when, errD_add4.
    Qed.
    Lemma y_div4 y1 y : (LY | y1) -> y ∈ rng y1 (y1 + LY) 8 -> (4 | y).
    Proof.
      clear LenA LenB. intros D1 Hy. destruct H8 as [n8 E8]. destruct D1 as [q1 ->]. rewrite E8 in Hy.
      apply rng_in in Hy as (Hy&Hy'&q&->); [|lia]. exists (q1 * n8 * 2 + q * 2). lia.
    Qed.
    Lemma errD_block x1 k1 x y : (4 | y) -> errD E (kt_block b W At Bp x1 k1 x y).
    Proof.
      clear LenA LenB. intros Hy. unfold kt_block. destruct (div4 k1 y Hy) as [D1 D2].
      apply errD_bind; [apply errD_vload; exact D1|]; intros ?. apply errD_bind; [apply errD_vload; exact D2|]; intros ?.
      apply errD_bind; [apply errD_forS; [left; lia|]; intros k s _; by apply errD_inner|]. intros s. apply errD_stores.
    Qed.
    Lemma errD_l1 x1 y1 k1 : (LY | y1) -> errD E (kt_l1 b W At Bp x1 y1 k1).
    Proof.
      clear LenA LenB. intros Dy. unfold kt_l1. apply errD_forP; [lia|]. intros x _. apply errD_forP; [lia|]. intros y Hy.
      apply errD_block. exact (y_div4 y1 y Dy Hy).
    Qed.
    Lemma errD_task x3 y3 : (LX | x3) -> (LY | y3) -> errD E (kt_task b P N At Bp x3 y3).
    Proof.
      clear LenA LenB. intros Dx Dy. rewrite kt_task_nest. apply (nest_closed b Hpos Hdiv nk (errD E)); [exact Dx|exact Dy| |].
      - intros lo hi st f Hst Hf. by apply errD_forP.
      - intros x1 y1 k1 (_&(Dy1&_)&_). by apply errD_l1.
    Qed.
    Context (HN : 0 < N) (HRK : W <= SpecTiled.round_up N (L3_K b)).
    Lemma failD_last x1 x : 
      failD E (kt_block b W At Bp x1 (SpecTiled.round_up N (L3_K b) - LK) x 0).
    Proof.
      clear LenA. assert (D0 : (4 | 0)) by (exists 0; reflexivity).
      pose proof Hpos as ((P1&P2&P3)&_&(_&_&P9)). destruct Hdiv as ((_&_&D3)&(_&_&D6)). destruct (Nat.divide_trans _ _ _ D3 D6) as [q Eq].
      assert (LK <= SpecTiled.round_up N (L3_K b)) as HL.
      { pose proof (cdiv_pos N (L3_K b) P3 HN) as Hc. unfold SpecTiled.round_up. rewrite Eq at 2. clear -Hc P3 Eq.
        destruct (cdiv N (L3_K b)) as [|c]; [lia|]. destruct q as [|q]; [lia|]. nia. }
      set (R := SpecTiled.round_up N (L3_K b)) in *.
      unfold kt_block. destruct (div4 (R - LK) 0 D0) as [D1 D2].
      apply failD_bind_r; [apply errD_vload; exact D1|]; intros ?. apply failD_bind_r; [apply errD_vload; exact D2|]; intros ?.
      apply failD_bind_l; [|intros s; apply errD_stores].
      rewrite forS_step by lia. apply (failD_foldP E _ _ _ (R - 1)).
      - rewrite rng_1. apply elem_of_seq. lia.
      - intros k s _. by apply errD_inner.
      - intros s. destruct s as [[s1 s2] [[[[[[[[[c0 c1] c2] c3] c4] c5] c6] c7] c8] c9]]. unfold kt_inner.
        do 5 (apply failD_bind_r; [by apply errD_vget|]; intros ?). replace (R - 1 + 1) with R by lia.
        destruct (div4 R 0 D0) as [D3' D4]. apply failD_bind_l; [|intros ?; apply errD_bind; [apply errD_vload; exact D4|]; intros ?; done].
        unfold vload_aligned. assert ((R * W + 0) mod 4 = 0) as -> by (apply Nat.mod_divide; [lia|exact D3']). cbn [negb Nat.eqb].
        apply failD_bind_l; [|intros ?; do 3 (apply errD_bind; [by apply errD_vget|]; intros ?); done].
        unfold vget. rewrite lookup_ge_None_2; [done|]. rewrite LenB. nia.
    Qed.
    Lemma last_in lo n st : 0 < st -> 0 < n -> lo + n * st - st ∈ rng lo (lo + n * st) st.
    Proof. clear. intros Hst Hn. apply elem_of_rng; [done|]. exists (n - 1). nia. Qed.
    Lemma failD_task : failD E (kt_task b P N At Bp 0 0).
    Proof.
      clear LenA. pose proof Hpos as ((P1&P2&P3)&(P4&P5&P6)&(P7&P8&P9)). pose proof Hdiv as ((D1&D2&D3)&(D4&D5&D6)).
      rewrite kt_task_nest.
      assert (D0x : (LX | 0)) by (exists 0; reflexivity). assert (D0y : (LY | 0)) by (exists 0; reflexivity).
      assert (V : forall k3 x2 y2 k2 x1 y1 k1, k3 ∈ rng 0 (nk * L3_K b) (L3_K b) -> x2 ∈ rng 0 (0 + L3_X b) (L2_X b) -> y2 ∈ rng 0 (0 + L3_Y b) (L2_Y b) ->
        k2 ∈ rng k3 (k3 + L3_K b) (L2_K b) -> x1 ∈ rng x2 (x2 + L2_X b) LX -> y1 ∈ rng y2 (y2 + L2_Y b) LY -> k1 ∈ rng k2 (k2 + L2_K b) LK ->
        errD E (kt_l1 b W At Bp x1 y1 k1)).
      { intros k3 x2 y2 k2 x1 y1 k1 V1 V2 V3 V4 V5 V6 V7.
        destruct (visit_inside b Hpos Hdiv nk 0 0 k3 x2 y2 k2 x1 y1 k1) as (_&(Dy1&_)&_); try assumption. by apply errD_l1. }
      assert (Z : forall lo L st, 0 < L -> 0 < st -> lo ∈ rng lo (lo + L) st).
      { clear. intros lo L st HL Hst. apply elem_of_rng; [done|]. exists 0. lia. }
      destruct D3 as [a6 A6]. destruct D6 as [a3 A3]. pose proof (cdiv_pos N (L3_K b) P3 HN) as Hnk.
      assert (V1 : nk * L3_K b - L3_K b ∈ rng 0 (nk * L3_K b) (L3_K b)) by (apply (last_in 0 nk); assumption).
      set (k3 := nk * L3_K b - L3_K b) in *.
      assert (V4 : k3 + L3_K b - L2_K b ∈ rng k3 (k3 + L3_K b) (L2_K b)) by (rewrite A3; apply last_in; [done|destruct a3; lia]).
      set (k2 := k3 + L3_K b - L2_K b) in *.
      assert (V7 : k2 + L2_K b - LK ∈ rng k2 (k2 + L2_K b) LK) by (rewrite A6; apply last_in; [done|destruct a6; lia]).
      unfold nest.
      apply (failD_forP E _ _ _ _ k3 P3 V1).
      { intros k3' W1. apply errD_forP; [done|]. intros x2 W2. apply errD_forP; [done|]. intros y2 W3. apply errD_forP; [done|]. intros k2' W4.
        apply errD_forP; [done|]. intros x1 W5. apply errD_forP; [done|]. intros y1 W6. apply errD_forP; [done|]. intros k1 W7. by apply (V k3' x2 y2 k2'). }
      apply (failD_forP E _ _ _ _ 0 P4 (Z 0 _ _ P1 P4)).
      { intros x2 W2. apply errD_forP; [done|]. intros y2 W3. apply errD_forP; [done|]. intros k2' W4.
        apply errD_forP; [done|]. intros x1 W5. apply errD_forP; [done|]. intros y1 W6. apply errD_forP; [done|]. intros k1 W7. by apply (V k3 x2 y2 k2'). }
      apply (failD_forP E _ _ _ _ 0 P5 (Z 0 _ _ P2 P5)).
      { intros y2 W3. apply errD_forP; [done|]. intros k2' W4.
        apply errD_forP; [done|]. intros x1 W5. apply errD_forP; [done|]. intros y1 W6. apply errD_forP; [done|]. intros k1 W7.
        apply (V k3 0 y2 k2'); try assumption. exact (Z 0 _ _ P1 P4). }
      apply (failD_forP E _ _ _ _ k2 P6 V4).
      { intros k2' W4.
        apply errD_forP; [done|]. intros x1 W5. apply errD_forP; [done|]. intros y1 W6. apply errD_forP; [done|]. intros k1 W7.
        apply (V k3 0 0 k2'); try assumption; [exact (Z 0 _ _ P1 P4)|exact (Z 0 _ _ P2 P5)]. }
      apply (failD_forP E _ _ _ _ 0 P7 (Z 0 _ _ P4 P7)).
      { intros x1 W5. apply errD_forP; [done|]. intros y1 W6. apply errD_forP; [done|]. intros k1 W7.
        apply (V k3 0 0 k2); try assumption; [exact (Z 0 _ _ P1 P4)|exact (Z 0 _ _ P2 P5)]. }
      apply (failD_forP E _ _ _ _ 0 P8 (Z 0 _ _ P5 P8)).
      { intros y1 W6. apply errD_forP; [done|]. intros k1 W7.
        apply (V k3 0 0 k2 0); try assumption; [exact (Z 0 _ _ P1 P4)|exact (Z 0 _ _ P2 P5)|exact (Z 0 _ _ P4 P7)]. }
      apply (failD_forP E _ _ _ _ _ P9 V7).
      { intros k1 W7. apply (V k3 0 0 k2 0 0); try assumption;
          [exact (Z 0 _ _ P1 P4)|exact (Z 0 _ _ P2 P5)|exact (Z 0 _ _ P4 P7)|exact (Z 0 _ _ P5 P8)]. }
      assert (k2 + L2_K b - LK = SpecTiled.round_up N (L3_K b) - LK) as ->.
      { unfold SpecTiled.round_up, k2, k3. assert (LK <= L2_K b) by (destruct a6; nia). assert (L2_K b <= L3_K b) by (destruct a3; nia).
        assert (L3_K b <= nk * L3_K b) by (clear -Hnk; destruct nk; [lia|cbn [Nat.mul]; lia]). lia. }
      unfold kt_l1. assert (Q5 : 0 < 5) by lia. apply (failD_forP E _ _ _ _ 0 Q5 (Z 0 _ 5 P7 Q5)).
      { intros x W8. apply errD_forP; [lia|]. intros y W9. apply errD_block. exact (y_div4 0 y D0y W9). }
      assert (Q8 : 0 < 8) by lia. apply (failD_forP E _ _ _ _ 0 Q8 (Z 0 _ 8 P8 Q8)).
      { intros y W9. apply errD_block. exact (y_div4 0 y D0y W9). }
      apply failD_last.
    Qed.
  End Fails.

  Lemma errD_copy_back : errD (fun e => e = EOob) (kt_copy_back (T := T) P N).
  Proof.
    clear. unfold kt_copy_back. do 2 (apply errD_forS; [left; lia|]; intros ? ? _). apply errD_bind; [by apply errD_rd|].
    intros v. by apply errD_vset.
  Qed.
  Lemma tasks_first : 0 < N -> (0, 0) ∈ ltasks b nx ny.
  Proof.
    intros HN. destruct Hpos as ((P1&P2&P3)&_). unfold ltasks. rewrite <- !rng_round by done.
    apply elem_of_list_bind. exists 0. split; [|apply elem_of_rng0; [done|]; exists 0; lia].
    apply elem_of_list_bind. exists 0. split; [by apply elem_of_list_singleton|apply elem_of_rng0; [done|]; exists 0; lia].
  Qed.
  Lemma kt_oob (A B : list T) transposed reps : length A = N * N -> length B = N * N -> 0 < N -> 0 < reps ->
    (4 | W) -> W <= SpecTiled.round_up N (L3_K b) ->
    must_fail (fun e => e = EOob) (kernel_test_matrix_multiply b P N A B transposed reps) ∅.
  Proof.
    intros HA HB HN Hr H4 RK. destruct (kt_eq A B transposed reps HA HB) as (At&Bp&LAt&LBp&HAt&HBp&->).
    apply failD_must_fail; [|apply datm_empty].
    apply failD_bind_r; [apply errD_valloc|]. intros _. apply failD_bind_l; [|intros _; apply errD_copy_back].
    assert (HE : errD (fun e => e = EOob) (forP 0 (W * W) 1 (fun i => wr idCp i (nzero : T)))).
    { apply errD_forP; [lia|]. intros i _. by apply errD_wr. }
    assert (HT : forall t, t ∈ ltasks b nx ny -> errD (fun e => e = EOob) (kt_task b P N At Bp t.1 t.2)).
    { intros t Ht. destruct (ltasks_div b Hpos Hdiv nx ny t Ht) as (Dx&Dy&_). by apply errD_task. }
    apply (failD_forP _ _ _ _ _ 0); [lia|apply elem_of_rng0; [lia|]; exists 0; lia| |].
    - intros _ _. unfold ktrep. apply errD_bind; [exact HE|]. intros _. by apply errD_parL.
    - unfold ktrep. apply failD_bind_r; [exact HE|]. intros _. apply (failD_parL _ _ _ (0, 0)); [by apply tasks_first|exact HT|].
      by apply failD_task.
  Qed.

  (** Rows that are not a multiple of four doubles: the second row of B is misaligned. *)
  Lemma forP_first lo hi st (f : nat -> prog T unit) e : 0 < st -> lo < hi -> f lo = Err e -> forP lo hi st f = Err e.
  Proof. clear. intros Hst Hlt Hf. unfold forP. rewrite forS_step by done. rewrite rng_cons by done. cbn [foldP]. by rewrite Hf. Qed.
  Lemma kt_misaligned_task (At Bp : list T) x3 y3 : length At = W * W -> length Bp = W * W -> 8 <= P -> ~ (4 | W) -> x3 < N -> y3 < N -> (4 | y3) ->
    kt_task b P N At Bp x3 y3 = Err EMisaligned.
  Proof.
    intros LA LB HP HW Hx Hy D4. destruct Hpos as ((P1&P2&P3)&(P4&P5&P6)&(P7&P8&P9)). unfold kt_task.
    do 7 (apply forP_first; [done|lia|]). unfold kt_l1. do 2 (apply forP_first; [lia|lia|]). unfold kt_block.
    assert (HL : forall y, (4 | y) -> y + 3 < W * W -> exists v, vload_aligned Bp (0 * W + y) = Ret v).
    { intros y Dy Hy'. unfold vload_aligned. cbn [Nat.mul Nat.add]. assert (y mod 4 = 0) as -> by (apply Nat.mod_divide; [lia|exact Dy]).
      cbn [negb Nat.eqb].
      assert (HG : forall i, i < W * W -> exists x, vget Bp i = Ret x).
      { intros i Hi. unfold vget. destruct (lookup_lt_is_Some_2 Bp i) as [x ->]; [by rewrite LB|by exists x]. }
      destruct (HG y ltac:(lia)) as [v0 ->]. cbn [pbind]. destruct (HG (y + 1) ltac:(lia)) as [v1 ->]. cbn [pbind].
      destruct (HG (y + 2) ltac:(lia)) as [v2 ->]. cbn [pbind]. destruct (HG (y + 3) ltac:(lia)) as [v3 ->]. cbn [pbind]. by eexists. }
    assert (W <= W * W) by nia.
    destruct (HL y3 D4 ltac:(lia)) as [v ->]. cbn [pbind].
    assert (D4' : (4 | y3 + 4)) by (apply Nat.divide_add_r; [exact D4|exists 1; reflexivity]).
    destruct (HL (y3 + 4) D4' ltac:(lia)) as [v' ->]. cbn [pbind].
    assert (HI : forall s, kt_inner W At Bp x3 y3 0 s = Err EMisaligned); [|rewrite forS_step by lia; rewrite rng_cons by lia; cbn [foldP]; by rewrite HI].
    intros [[s1 s2] [[[[[[[[[c0 c1] c2] c3] c4] c5] c6] c7] c8] c9]]. unfold kt_inner.
    assert (HG : forall i, i < W * W -> exists x, vget At i = Ret x).
    { intros i Hi. unfold vget. destruct (lookup_lt_is_Some_2 At i) as [x ->]; [by rewrite LA|by exists x]. }
    destruct (HG (0 * W + (x3 + 0)) ltac:(lia)) as [u0 ->]. cbn [pbind]. destruct (HG (0 * W + (x3 + 1)) ltac:(lia)) as [u1 ->]. cbn [pbind].
    destruct (HG (0 * W + (x3 + 2)) ltac:(lia)) as [u2 ->]. cbn [pbind]. destruct (HG (0 * W + (x3 + 3)) ltac:(lia)) as [u3 ->]. cbn [pbind].
    destruct (HG (0 * W + (x3 + 4)) ltac:(lia)) as [u4 ->]. cbn [pbind].
    unfold vload_aligned. destruct (((0 + 1) * W + y3) mod 4 =? 0) eqn:Em; [|done]. exfalso. apply HW.
    apply Nat.eqb_eq in Em. apply Nat.mod_divide in Em; [|lia]. replace ((0 + 1) * W + y3) with (y3 + W) in Em by lia.
    apply (Nat.divide_add_cancel_r _ _ _ D4 Em).
  Qed.
  Lemma kt_misaligned (A B : list T) transposed reps : length A = N * N -> length B = N * N -> 0 < N -> 0 < reps -> 8 <= P ->
    ~ (4 | W) -> must_fail (fun e => e = EMisaligned) (kernel_test_matrix_multiply b P N A B transposed reps) ∅.
  Proof.
    intros HA HB HN Hr HP H4. destruct (kt_eq A B transposed reps HA HB) as (At&Bp&LAt&LBp&HAt&HBp&->).
    destruct (run_valloc idCp (W * W) (nzero : T) ∅) as (m1&Hr1&H1'&Hne).
    assert (Hm1 : datm m1).
    { pose proof (run_errD (fun _ => True) (valloc idCp (W * W) (nzero : T)) ∅ (errD_valloc _ _ _ _) datm_empty) as Hd. by rewrite Hr1 in Hd. }
    apply (must_fail_after _ _ _ _ tt m1); [apply nopar_valloc|exact Hr1|].
    unfold forP at 1. rewrite forS_step by lia. rewrite rng_cons by lia. cbn [foldP].
    apply must_fail_bind. apply must_fail_bind. unfold ktrep.
    assert (Hd : does (forP 0 (W * W) 1 (fun i => wr idCp i (nzero : T))) (rng 0 (W * W) 1 ≫= fun i => [((idCp, i) : loc, fun _ => nzero)])).
    { apply does_forP; [lia|]. intros i _. apply does_wr. }
    assert (Hp : present (rng 0 (W * W) 1 ≫= fun i => [((idCp, i) : loc, fun _ : T => nzero)]) m1).
    { intros u (i&->%elem_of_list_singleton&Hi%rng_bounds)%elem_of_list_bind. exists nzero. cbn [fst]. apply H1'. lia. }
    apply (must_fail_after _ _ _ _ tt (applyM (rng 0 (W * W) 1 ≫= fun i => [((idCp, i) : loc, fun _ => nzero)]) m1)).
    - apply nopar_forS. intros i _. apply nopar_wr.
    - exact (Hd m1 Hp).
    - apply failD_must_fail.
      + assert (HT : forall t, t ∈ ltasks b nx ny -> kt_task b P N At Bp t.1 t.2 = Err EMisaligned).
        { intros t Ht. pose proof (ltasks_div b Hpos Hdiv nx ny t Ht) as (_&Dy&_).
          destruct Hpos as ((P1&P2&P3)&_). unfold ltasks in Ht. rewrite <- !rng_round in Ht by done.
          apply elem_of_list_bind in Ht as (x&(y&->%elem_of_list_singleton&Hy%rng_bounds)%elem_of_list_bind&Hx%rng_bounds).
          apply kt_misaligned_task; try assumption; cbn [fst snd] in *; [lia|lia|].
          apply (Nat.divide_trans _ _ _ (ex_intro _ 2 eq_refl : (4 | 8))). exact (Nat.divide_trans _ _ _ H8 Dy). }
        apply (failD_parL _ _ _ (0, 0)); [by apply tasks_first| |].
        * intros t Ht. rewrite HT by done. done.
        * pose proof (HT _ (tasks_first HN)) as HT0. cbn [fst snd] in *. rewrite HT0. done.
      + pose proof (run_errD (fun _ => True) (forP 0 (W * W) 1 (fun i => wr idCp i (nzero : T))) m1) as Hd'.
        rewrite (Hd m1 Hp) in Hd'. apply Hd'; [|done]. apply errD_forP; [lia|]. intros i _. by apply errD_wr.
  Qed.
End KT.
