(** Proofs about src/reference_kernels/kernel_tiled.cpp. *)
From Verif Require Import Tools Tools2 MIter SpecIter PIter PIter2 PKernels PRecursive PLooped MTiled SpecTiled PTiled.

Lemma mul_next q L n : q * L < n * L -> q * L + L <= n * L.
Proof. intros Hq. assert (q < n) by nia. nia. Qed.
Lemma bind4_select {Y} a b c d (g : nat -> nat -> nat -> nat -> list Y) i j k l :
  i < a -> j < b -> k < c -> l < d ->
  (forall i' j' k' l', i' < a -> j' < b -> k' < c -> l' < d -> ~ (i' = i /\ j' = j /\ k' = k /\ l' = l) -> g i' j' k' l' = []) ->
  (seq 0 a ≫= fun i => seq 0 b ≫= fun j => seq 0 c ≫= fun k => seq 0 d ≫= fun l => g i j k l) = g i j k l.
Proof.
  intros Hi Hj Hk Hl Hg.
  rewrite (bind_select _ _ i); [|apply NoDup_seq|apply elem_of_seq; lia|].
  - rewrite (bind_select _ _ j); [|apply NoDup_seq|apply elem_of_seq; lia|].
    + rewrite (bind_select _ _ k); [|apply NoDup_seq|apply elem_of_seq; lia|].
      * rewrite (bind_select _ _ l); [done|apply NoDup_seq|apply elem_of_seq; lia|].
        intros l' Hl'%elem_of_seq Hne. apply Hg; lia.
      * intros k' Hk'%elem_of_seq Hne. apply bind_nil. intros l' Hl'%elem_of_seq. apply Hg; lia.
    + intros j' Hj'%elem_of_seq Hne. apply bind_nil. intros k' Hk'%elem_of_seq. apply bind_nil. intros l' Hl'%elem_of_seq. apply Hg; lia.
  - intros i' Hi'%elem_of_seq Hne. apply bind_nil. intros j' Hj'%elem_of_seq. apply bind_nil. intros k' Hk'%elem_of_seq.
    apply bind_nil. intros l' Hl'%elem_of_seq. apply Hg; lia.
Qed.

Section RunLocal.
  Context {T : Type}.
  Lemma run_foldP_applyL {X : Type} (n : nat) (l : list X) (f : X -> list T -> prog T (list T)) (us : X -> list (nat * (T -> T))) (m : mem T) (s : list T) :
    length s = n ->
    (forall x s, x ∈ l -> length s = n -> run (f x s) m = Ok (applyL (us x) s, m)) ->
    run (foldP l f s) m = Ok (applyL (l ≫= us) s, m).
  Proof.
    revert s. induction l as [|x l IH]; intros s Hs Hf; [done|]. cbn [foldP].
    rewrite run_bind, (Hf x s) by (done || by apply elem_of_cons; left).
    rewrite IH.
    - by rewrite bind_cons, applyL_app.
    - by rewrite length_applyL.
    - intros y s' Hy. apply Hf, elem_of_cons; by right.
  Qed.
  Lemma run_forS1_applyL (n hi : nat) (f : nat -> list T -> prog T (list T)) (us : nat -> list (nat * (T -> T))) (m : mem T) (s : list T) :
    length s = n ->
    (forall x s, x < hi -> length s = n -> run (f x s) m = Ok (applyL (us x) s, m)) ->
    run (forS 0 hi 1 f s) m = Ok (applyL (seq 0 hi ≫= us) s, m).
  Proof.
    intros Hs Hf. rewrite forS_step by lia. rewrite rng_1, Nat.sub_0_r. apply run_foldP_applyL with (n := n); [done|].
    intros x s' Hx%elem_of_seq. apply Hf. lia.
  Qed.
End RunLocal.

Section Untile.
  Context {T : Type} `{NumOps T}.
  Context (b : blocks).
  Notation LX := (L1_X b). Notation LY := (L1_Y b). Notation LK := (L1_K b).
  Context (NX NY N : nat) (HLX : 0 < LX) (HLY : 0 < LY).
  Notation X := (NX * LX). Notation Y := (NY * LY).
  Context (HX : N <= X) (HY : N <= Y).
  Lemma run_untile (g : nat -> nat -> T) (m : mem T) :
    (forall i j, i < N -> j < N -> m !! cell b NY i j = Some (VD (g i j))) ->
    exists C, run (untile_C b N X Y) m = Ok (C, m) /\ is_matrix N g C.
  Proof.
    intros Hm. unfold untile_C. rewrite !Nat.div_mul by lia.
    set (U := fun l1x l1y x y : nat => if decide (l1x * LX + x < N /\ l1y * LY + y < N) then
      [((l1x * LX + x) * N + (l1y * LY + y), fun _ : T => g (l1x * LX + x) (l1y * LY + y))] else []).
    rewrite (run_forS1_applyL (N * N) _ _ (fun l1x => seq 0 NY ≫= fun l1y => seq 0 LX ≫= fun x => seq 0 LY ≫= fun y => U l1x l1y x y));
      [|by rewrite replicate_length|].
    - eexists. split; [reflexivity|]. split; [by rewrite length_applyL, replicate_length|].
      intros i j Hi Hj. rewrite applyL_lookup, lookup_replicate_2 by (by apply mixed_lt). cbn [fmap option_fmap option_map].
      pose proof (Nat.mod_upper_bound i LX ltac:(lia)) as Mi. pose proof (Nat.mod_upper_bound j LY ltac:(lia)) as Mj.
      pose proof (Nat.div_mod i LX ltac:(lia)) as Ei. pose proof (Nat.div_mod j LY ltac:(lia)) as Ej.
      rewrite contrib_bind. 
      rewrite (bind_ext _ (fun l1x => seq 0 NY ≫= fun l1y => seq 0 LX ≫= fun x => seq 0 LY ≫= fun y => contrib (i * N + j) (U l1x l1y x y))).
      2:{ intros l1x _. rewrite contrib_bind. apply bind_ext. intros l1y _. rewrite contrib_bind. apply bind_ext. intros x _. by rewrite contrib_bind. }
      rewrite (bind4_select _ _ _ _ (fun l1x l1y x y => contrib (i * N + j) (U l1x l1y x y)) (i / LX) (j / LY) (i mod LX) (j mod LY)).
      + unfold U. replace (i / LX * LX + i mod LX) with i by lia. replace (j / LY * LY + j mod LY) with j by lia.
        rewrite decide_True by done. rewrite contrib_single_eq. done.
      + apply Nat.div_lt_upper_bound; lia.
      + apply Nat.div_lt_upper_bound; lia.
      + done.
      + done.
      + intros l1x l1y x y ? ? ? ? Hne. unfold U. case_decide as Hin; [|done]. apply contrib_single_ne. intros E.
        apply mixed_inj in E as [E1 E2]; [|lia..]. apply Hne.
        rewrite <- E1, <- E2. destruct (div_mod_block LX l1x x) as [-> ->]; [done|]. destruct (div_mod_block LY l1y y) as [-> ->]; [done|]. done.
    - intros l1x s1 Hl1x Hs1.
      apply (run_forS1_applyL (N * N) _ _ (fun l1y => seq 0 LX ≫= fun x => seq 0 LY ≫= fun y => U l1x l1y x y)); [done|].
      intros l1y s2 Hl1y Hs2. apply (run_forS1_applyL (N * N) _ _ (fun x => seq 0 LY ≫= fun y => U l1x l1y x y)); [done|].
      intros x s3 Hx Hs3. apply (run_forS1_applyL (N * N)); [done|]. intros y s4 Hy Hs4. unfold U. 
      case_decide as Hin.
      + destruct Hin as [Hi Hj]. rewrite !(proj2 (Nat.ltb_lt _ _)) by done. cbn [andb].
        assert (m !! ((idCp, LX * LY * (l1x * NY + l1y) + x * LY + y) : loc) = Some (VD (g (l1x * LX + x) (l1y * LY + y)))) as E.
        { rewrite <- Hm by done. unfold cell. destruct (div_mod_block LX l1x x) as [-> ->]; [done|]. destruct (div_mod_block LY l1y y) as [-> ->]; [done|].
          unfold tpos. do 2 f_equal. lia. }
        unfold rd_at. cbn [run pbind]. rewrite E. cbn [run pbind]. rewrite vset_at_ok; [done|]. rewrite Hs4. by apply mixed_lt.
      + destruct (l1x * LX + x <? N) eqn:E1, (l1y * LY + y <? N) eqn:E2; try done.
        apply Nat.ltb_lt in E1, E2. by destruct Hin.
  Qed.
  Lemma nopar_untile : nopar (untile_C (T := T) b N X Y).
  Proof.
    unfold untile_C. do 4 (apply nopar_forS; intros ? ?). case_match; [|done].
    apply nopar_bind; [|intros v; unfold vset_at; by case_match]. intros [[]|]; done.
  Qed.
End Untile.

Section Tiled2.
  Context {T : Type} `{NumOps T}.
  Context (b : blocks) (Hok : blocks_ok b).
  Notation LX := (L1_X b). Notation LY := (L1_Y b). Notation LK := (L1_K b).
  Context (NX NY NK : nat).
  Notation X := (NX * LX). Notation Y := (NY * LY). Notation K := (NK * LK).
  Context (At Bt : list T) (fA fB : nat -> nat -> T).
  Context (HAt : forall bx bk x k, bx < NX -> bk < NK -> x < LX -> k < LK ->
    At !! (LX * LK * (bk * NX + bx) + k * LX + x) = Some (fA (bx * LX + x) (bk * LK + k))).
  Context (HBt : forall by' bk y k, by' < NY -> bk < NK -> y < LY -> k < LK ->
    Bt !! (LY * LK * (bk * NY + by') + k * LY + y) = Some (fB (bk * LK + k) (by' * LY + y))).
  Notation cell := (cell b NY).
  Notation chunk := (chunk b fA fB).

  Lemma pos_div a c : 0 < c -> (a | c) -> 0 < a.
  Proof. clear. intros Hc [q Hq]. destruct a; lia. Qed.
  Lemma pos2 : 0 < L2_X b /\ 0 < L2_Y b /\ 0 < L2_K b.
  Proof.
    destruct Hok as ((P1&P2&P3)&_&(D1&D2&D3)&_).
    exact (conj (pos_div _ _ P1 D1) (conj (pos_div _ _ P2 D2) (pos_div _ _ P3 D3))).
  Qed.
  Lemma pos1 : 0 < LX /\ 0 < LY /\ 0 < LK.
  Proof.
    pose proof pos2 as (P1&P2&P3). destruct Hok as (_&(D1&D2&D3)&_).
    exact (conj (pos_div _ _ P1 D1) (conj (pos_div _ _ P2 D2) (pos_div _ _ P3 D3))).
  Qed.

  Definition us1 (x y k : nat) : list (loc * (T -> T)) := l1_us b NY fA fB (x / LX) (y / LY) (k / LK).
  Definition valid (x y k : nat) : Prop :=
    ((LX | x) /\ x < X) /\ ((LY | y) /\ y < Y) /\ (LK | k) /\ k < K.
  Lemma valid_split x y k : valid x y k -> exists bx by' bk, x = bx * LX /\ y = by' * LY /\ k = bk * LK /\ bx < NX /\ by' < NY /\ bk < NK.
  Proof.
    intros (([bx ->]&?)&([by' ->]&?)&[bk ->]&?). exists bx, by', bk. split_and!; [done..| | |]; nia.
  Qed.
  Lemma l1_does' x y k : valid x y k -> does (l1_kernel b X Y At Bt x y k) (us1 x y k).
  Proof.
    intros (bx&by'&bk&->&->&->&?&?&?)%valid_split. unfold us1. pose proof pos1 as (?&?&?).
    destruct Hok as (_&_&_&?&?). rewrite !Nat.div_mul by lia. apply (l1_does b NX NY NK); assumption.
  Qed.
  Lemma contrib_us1 x y k i j : (LX | x) -> x < X -> (LY | y) -> y < Y -> (LK | k) -> i < X -> j < Y ->
    contrib (cell i j) (us1 x y k) =
    if decide (x <= i < x + LX) then if decide (y <= j < y + LY) then [fun v => nadd v (chunk i j k)] else [] else [].
  Proof.
    intros [bx ->] Hx [by' ->] Hy [bk ->] Hi Hj. unfold us1. pose proof pos1 as (?&?&?).
    destruct Hok as (_&_&_&?&?). rewrite !Nat.div_mul by lia. apply (contrib_l1 b NX NY); try assumption; nia.
  Qed.
  Lemma us1_elem x y k u : valid x y k -> u ∈ us1 x y k ->
    exists i j, u.1 = cell i j /\ x <= i < x + LX /\ y <= j < y + LY /\ i < X /\ j < Y.
  Proof.
    intros (bx&by'&bk&->&->&->&?&?&?)%valid_split. unfold us1. pose proof pos1 as (?&?&?).
    destruct Hok as (_&_&_&?&?). rewrite !Nat.div_mul by lia.
    intros (i&j&E&Hi&Hj)%(l1_us_elem b NX); try assumption. exists i, j. split_and!; try lia; [done| |]; nia.
  Qed.

  (** The contributions of an L2 block, an L3 block. *)
  Lemma contrib_lev1 x y k i j : (LX | x) -> x + L2_X b <= X -> (LY | y) -> y + L2_Y b <= Y -> (LK | k) -> i < X -> j < Y ->
    contrib (cell i j) (rng x (x + L2_X b) LX ≫= fun x1 => rng y (y + L2_Y b) LY ≫= fun y1 => rng k (k + L2_K b) LK ≫= fun k1 => us1 x1 y1 k1) =
    if decide (x <= i < x + L2_X b) then if decide (y <= j < y + L2_Y b) then
      rng k (k + L2_K b) LK ≫= (fun k1 => [fun v => nadd v (chunk i j k1)]) else [] else [].
  Proof.
    intros Dx Hx Dy Hy Dk Hi Hj. pose proof pos1 as (?&?&?). destruct Hok as (_&([nx Ex]&[ny Ey]&[nk Ek])&_).
    rewrite Ex, Ey in *. rewrite contrib_bind. apply sel_range; [done|]. intros q Hq. rewrite contrib_bind.
    transitivity (if decide (y <= j < y + ny * LY) then if decide (x + q * LX <= i < x + q * LX + LX) then
      rng k (k + L2_K b) LK ≫= (fun k1 => [fun v => nadd v (chunk i j k1)]) else [] else []); [|repeat case_decide; done].
    apply sel_range; [done|]. intros q' Hq'. rewrite contrib_bind.
    rewrite (bind_ext _ (fun k1 => if decide (y + q' * LY <= j < y + q' * LY + LY) then
      if decide (x + q * LX <= i < x + q * LX + LX) then [fun v => nadd v (chunk i j k1)] else [] else [])).
    - by rewrite !bind_if.
    - intros k1 Hk1. apply elem_of_rng in Hk1 as (q''&->&Hk1); [|done]. rewrite contrib_us1; try assumption.
      + repeat case_decide; done.
      + apply Nat.divide_add_r; [exact Dx|exists q; reflexivity].
      + nia.
      + apply Nat.divide_add_r; [exact Dy|exists q'; reflexivity].
      + nia.
      + apply Nat.divide_add_r; [exact Dk|exists q''; reflexivity].
  Qed.

  Definition cs (i j : nat) (k : nat) : list (T -> T) := [fun v => nadd v (chunk i j k)].
  Definition lev1 (x y k : nat) : list (loc * (T -> T)) :=
    rng x (x + L2_X b) LX ≫= fun x1 => rng y (y + L2_Y b) LY ≫= fun y1 => rng k (k + L2_K b) LK ≫= fun k1 => us1 x1 y1 k1.
  Definition lev2 (x y k : nat) : list (loc * (T -> T)) :=
    rng x (x + L3_X b) (L2_X b) ≫= fun x2 => rng y (y + L3_Y b) (L2_Y b) ≫= fun y2 => rng k (k + L3_K b) (L2_K b) ≫= fun k2 => lev1 x2 y2 k2.
  Lemma div_chain : (LX | L3_X b) /\ (LY | L3_Y b) /\ (LK | L3_K b).
  Proof.
    clear HAt HBt. destruct Hok as (_&(D1&D2&D3)&(E1&E2&E3)&_).
    exact (conj (Nat.divide_trans _ _ _ D1 E1) (conj (Nat.divide_trans _ _ _ D2 E2) (Nat.divide_trans _ _ _ D3 E3))).
  Qed.
  Lemma contrib_lev2 x y k i j : (LX | x) -> x + L3_X b <= X -> (LY | y) -> y + L3_Y b <= Y -> (LK | k) -> i < X -> j < Y ->
    contrib (cell i j) (lev2 x y k) =
    if decide (x <= i < x + L3_X b) then if decide (y <= j < y + L3_Y b) then rng k (k + L3_K b) LK ≫= cs i j else [] else [].
  Proof.
    clear HAt HBt. intros Dx Hx Dy Hy Dk Hi Hj. pose proof pos1 as (?&?&?). pose proof pos2 as (?&?&?).
    destruct Hok as (_&(Fx&Fy&[nk' Ek'])&([nx Ex]&[ny Ey]&[nk Ek])&_). unfold lev2.
    rewrite Ex, Ey in *. rewrite contrib_bind. apply sel_range; [done|]. intros q Hq. rewrite contrib_bind.
    transitivity (if decide (y <= j < y + ny * L2_Y b) then if decide (x + q * L2_X b <= i < x + q * L2_X b + L2_X b) then
      rng k (k + L3_K b) LK ≫= cs i j else [] else []); [|repeat case_decide; done].
    apply sel_range; [done|]. intros q' Hq'. rewrite contrib_bind.
    rewrite (bind_ext _ (fun k2 => if decide (y + q' * L2_Y b <= j < y + q' * L2_Y b + L2_Y b) then
      if decide (x + q * L2_X b <= i < x + q * L2_X b + L2_X b) then rng k2 (k2 + L2_K b) LK ≫= cs i j else [] else [])).
    - rewrite !bind_if. repeat case_decide; [|done..].
      rewrite Ek. apply (rng_refine _ _ _ nk'); [done|nia|done].
    - intros k2 Hk2. apply elem_of_rng in Hk2 as (q''&->&Hk2); [|done]. unfold lev1. rewrite contrib_lev1; try assumption.
      + unfold cs. repeat case_decide; done.
      + apply Nat.divide_add_r; [exact Dx|]. apply Nat.divide_mul_r. exact Fx.
      + nia.
      + apply Nat.divide_add_r; [exact Dy|]. apply Nat.divide_mul_r. exact Fy.
      + nia.
      + apply Nat.divide_add_r; [exact Dk|]. apply Nat.divide_mul_r. exists nk'. exact Ek'.
  Qed.

  Context (nx ny nk : nat) (EX : X = nx * L3_X b) (EY : Y = ny * L3_Y b) (EK : K = nk * L3_K b).
  Definition task_us (x y : nat) : list (loc * (T -> T)) := rng 0 K (L3_K b) ≫= fun k => lev2 x y k.
  Lemma contrib_task x y i j : (LX | x) -> x + L3_X b <= X -> (LY | y) -> y + L3_Y b <= Y -> i < X -> j < Y ->
    contrib (cell i j) (task_us x y) =
    if decide (x <= i < x + L3_X b) then if decide (y <= j < y + L3_Y b) then rng 0 K LK ≫= cs i j else [] else [].
  Proof.
    clear HAt HBt. intros Dx Hx Dy Hy Hi Hj. pose proof pos1 as (?&?&?). pose proof div_chain as (_&_&[n En]).
    destruct Hok as ((?&?&?)&_). unfold task_us. rewrite contrib_bind.
    rewrite (bind_ext _ (fun k => if decide (x <= i < x + L3_X b) then if decide (y <= j < y + L3_Y b) then rng k (k + L3_K b) LK ≫= cs i j else [] else [])).
    - rewrite !bind_if. repeat case_decide; [|done..]. rewrite EK, <- (Nat.add_0_l (nk * L3_K b)).
      apply (rng_refine _ _ _ n); [done|nia|done].
    - intros k Hk. apply elem_of_rng0 in Hk as (q&->&Hk); [|done]. apply contrib_lev2; try assumption.
      apply Nat.divide_mul_r. exists n. exact En.
  Qed.
  Definition tasks : list (nat * nat) :=
    rng 0 X (L3_X b) ≫= fun l3_x => rng 0 Y (L3_Y b) ≫= fun l3_y => [(l3_x, l3_y)].
  Lemma tasks_elem t : t ∈ tasks -> exists a c, t = (a * L3_X b, c * L3_Y b) /\ a < nx /\ c < ny.
  Proof.
    clear HAt HBt. destruct Hok as ((?&?&?)&_).
    intros (x&(y&->%elem_of_list_singleton&Hy)%elem_of_list_bind&Hx)%elem_of_list_bind.
    apply elem_of_rng0 in Hx as (a&->&Ha); [|done]. apply elem_of_rng0 in Hy as (c&->&Hc); [|done].
    exists a, c. split_and!; [done|nia|nia].
  Qed.
  Lemma contrib_tasks i j : i < X -> j < Y -> contrib (cell i j) (tasks ≫= fun t => task_us t.1 t.2) = rng 0 K LK ≫= cs i j.
  Proof.
    clear HAt HBt. intros Hi Hj. unfold tasks. rewrite bind_bind, contrib_bind.
    destruct Hok as ((?&?&?)&_). pose proof div_chain as (Dx&Dy&_).
    transitivity (if decide (0 <= i < 0 + nx * L3_X b) then rng 0 K LK ≫= cs i j else []); [|rewrite decide_True by lia; done].
    replace (rng 0 X (L3_X b)) with (rng 0 (0 + nx * L3_X b) (L3_X b)) by (f_equal; lia).
    apply sel_range; [done|]. intros q Hq. rewrite Nat.add_0_l, bind_bind, contrib_bind.
    transitivity (if decide (0 <= j < 0 + ny * L3_Y b) then if decide (q * L3_X b <= i < q * L3_X b + L3_X b) then rng 0 K LK ≫= cs i j else [] else []);
      [|rewrite decide_True by lia; done].
    replace (rng 0 Y (L3_Y b)) with (rng 0 (0 + ny * L3_Y b) (L3_Y b)) by (f_equal; lia).
    apply sel_range; [done|]. intros q' Hq'. rewrite Nat.add_0_l. cbn [mbind list_bind app fst snd]. rewrite app_nil_r.
    rewrite contrib_task; try assumption; [repeat case_decide; done| | | |].
    - apply Nat.divide_mul_r. exact Dx.
    - nia.
    - apply Nat.divide_mul_r. exact Dy.
    - nia.
  Qed.
  Lemma chunks_value i j : fold_upd (rng 0 K LK ≫= cs i j) nzero = dot_chunks LK (fun k => nmul (fA i k) (fB k j)) K.
  Proof.
    clear HAt HBt. pose proof pos1 as (?&?&?). unfold cs. rewrite bind_ret_fmap. unfold dot_chunks.
    rewrite rng_0_exact, Nat.div_mul by lia. rewrite <- list_fmap_compose. 
    assert (forall ks z, fold_upd ((fun (k : nat) (v : T) => nadd v (chunk i j k)) ∘ (fun q => q * LK) <$> ks) z =
      foldl (fun acc q => nadd acc (chunk i j (q * LK))) z ks) as Hf; [|apply Hf].
    induction ks as [|q ks IH]; intros z; [done|]. cbn [fmap list_fmap foldl]. rewrite <- IH. done.
  Qed.

  (** The points visited inside a task are valid. *)
  Lemma lev1_valid x y k x1 y1 k1 : (LX | x) -> x + L2_X b <= X -> (LY | y) -> y + L2_Y b <= Y -> (LK | k) -> k + L2_K b <= K ->
    x1 ∈ rng x (x + L2_X b) LX -> y1 ∈ rng y (y + L2_Y b) LY -> k1 ∈ rng k (k + L2_K b) LK -> valid x1 y1 k1.
  Proof.
    clear HAt HBt. intros Dx Hx Dy Hy Dk Hk H1 H2 H3. pose proof pos1 as (?&?&?).
    apply elem_of_rng in H1 as (q1&->&H1); [|done]. apply elem_of_rng in H2 as (q2&->&H2); [|done]. apply elem_of_rng in H3 as (q3&->&H3); [|done].
    assert (forall L z q, (L | z) -> (L | z + q * L)) as HD.
    { intros L z q Hz. apply Nat.divide_add_r; [exact Hz|exists q; reflexivity]. }
    split_and!; (apply HD; assumption) || lia.
  Qed.
  Lemma task_elems (P : nat -> nat -> nat -> Prop) x y k x2 y2 k2 : (LX | x) -> x + L3_X b <= X -> (LY | y) -> y + L3_Y b <= Y -> (LK | k) -> k + L3_K b <= K ->
    x2 ∈ rng x (x + L3_X b) (L2_X b) -> y2 ∈ rng y (y + L3_Y b) (L2_Y b) -> k2 ∈ rng k (k + L3_K b) (L2_K b) ->
    ((LX | x2) -> x2 + L2_X b <= X -> (LY | y2) -> y2 + L2_Y b <= Y -> (LK | k2) -> k2 + L2_K b <= K ->
      x <= x2 -> x2 + L2_X b <= x + L3_X b -> y <= y2 -> y2 + L2_Y b <= y + L3_Y b -> P x2 y2 k2) -> P x2 y2 k2.
  Proof.
    clear HAt HBt. intros Dx Hx Dy Hy Dk Hk H1 H2 H3 HP. pose proof pos2 as (?&?&?).
    destruct Hok as (_&(F1&F2&F3)&([n1 E1]&[n2 E2]&[n3 E3])&_).
    apply elem_of_rng in H1 as (q1&->&H1); [|done]. apply elem_of_rng in H2 as (q2&->&H2); [|done]. apply elem_of_rng in H3 as (q3&->&H3); [|done].
    assert (forall L L' z q, (L | z) -> (L | L') -> (L | z + q * L')) as HD.
    { intros L L' z q Hz HL. apply Nat.divide_add_r; [exact Hz|]. apply Nat.divide_mul_r. exact HL. }
    pose proof (mul_next q1 (L2_X b) n1 ltac:(lia)). pose proof (mul_next q2 (L2_Y b) n2 ltac:(lia)). pose proof (mul_next q3 (L2_K b) n3 ltac:(lia)).
    apply HP; try (apply HD; assumption); lia.
  Qed.
  Lemma task_does a c : a < nx -> c < ny ->
    does (kernel_tiled_task b X Y K At Bt (a * L3_X b) (c * L3_Y b)) (task_us (a * L3_X b) (c * L3_Y b)).
  Proof.
    intros Ha Hc. pose proof pos1 as (?&?&?). pose proof pos2 as (?&?&?). pose proof div_chain as (Dx&Dy&Dk).
    pose proof Hok as ((?&?&?)&_). unfold kernel_tiled_task, task_us.
    apply does_forP; [done|]. intros k3 Hk3. apply elem_of_rng0 in Hk3 as (q&->&Hk3); [|done].
    unfold lev2. apply does_forP; [done|]. intros x2 Hx2. apply does_forP; [done|]. intros y2 Hy2. apply does_forP; [done|]. intros k2 Hk2.
    revert Hx2 Hy2 Hk2. intros Hx2 Hy2 Hk2.
    apply (task_elems (fun x2 y2 k2 => does (forP x2 (x2 + L2_X b) LX (fun l1_x => forP y2 (y2 + L2_Y b) LY (fun l1_y =>
      forP k2 (k2 + L2_K b) LK (fun l1_k => l1_kernel b X Y At Bt l1_x l1_y l1_k)))) (lev1 x2 y2 k2)) (a * L3_X b) (c * L3_Y b) (q * L3_K b)); try assumption.
    - apply Nat.divide_mul_r. exact Dx.
    - nia.
    - apply Nat.divide_mul_r. exact Dy.
    - nia.
    - apply Nat.divide_mul_r. exact Dk.
    - rewrite EK in *. by apply mul_next.
    - intros. unfold lev1. apply does_forP; [done|]. intros x1 Hx1. apply does_forP; [done|]. intros y1 Hy1. apply does_forP; [done|]. intros k1 Hk1.
      apply l1_does'. apply (lev1_valid x2 y2 k2); assumption.
  Qed.

  (** ** Footprints *)
  Definition Wb (x y wx wy : nat) (l : loc) : Prop := exists i j, l = cell i j /\ x <= i < x + wx /\ y <= j < y + wy.
  Lemma simple_vload (v : list T) i : simple (vload_aligned v i).
  Proof.
    clear. unfold vload_aligned. case_match; [apply simple_err|]. do 4 (apply simple_bind; [apply simple_vget|]; intros ?). apply simple_ret.
  Qed.
  Lemma simple_reg_inner Ab Bb x y k acc : simple (reg_inner b At Bt Ab Bb x y k acc).
  Proof.
    clear. destruct acc as [[[[[[[[[c0 c1] c2] c3] c4] c5] c6] c7] c8] c9]. unfold reg_inner.
    do 2 (apply simple_bind; [apply simple_vload|]; intros ?). do 5 (apply simple_bind; [apply simple_vget|]; intros ?). apply simple_ret.
  Qed.
  Lemma acc_add4 (R W : loc -> Prop) a i (v : v4) : (forall l, l < 4 -> W (a, i + l)) -> acc_in R W (add4 a i v).
  Proof.
    clear. intros HW. unfold add4, load4.
    pose proof (HW 0 ltac:(lia)) as W0. rewrite Nat.add_0_r in W0.
    pose proof (HW 1 ltac:(lia)) as W1. pose proof (HW 2 ltac:(lia)) as W2. pose proof (HW 3 ltac:(lia)) as W3.
    apply acc_in_bind.
    - do 4 (apply acc_in_bind; [apply acc_in_rd; by right|]; intros ?). done.
    - intros [[[r0 r1] r2] r3]. destruct v as [[[v0 v1] v2] v3]. unfold store4, v4_add.
      do 3 (apply acc_in_bind; [by apply acc_in_wr|]; intros ?). by apply acc_in_wr.
  Qed.
  Lemma nopar_add4 a i (v : v4) : nopar (T := T) (add4 a i v).
  Proof.
    clear. unfold add4, load4. apply nopar_bind.
    - do 4 (apply nopar_bind; [apply nopar_rd|]; intros ?). done.
    - intros [[[r0 r1] r2] r3]. destruct v as [[[v0 v1] v2] v3]. unfold store4, v4_add.
      do 3 (apply nopar_bind; [apply nopar_wr|]; intros ?). apply nopar_wr.
  Qed.
  Lemma simple_nopar {A} (p : prog T A) : simple p -> nopar p.
  Proof. clear. by intros [[a ->]|[e ->]]. Qed.
  Lemma nopar_l1 x y k : nopar (l1_kernel b X Y At Bt x y k).
  Proof.
    clear. unfold l1_kernel. apply nopar_forS. intros x1 _. apply nopar_forS. intros y1 _. unfold reg_block.
    apply nopar_bind; [apply simple_nopar, simple_forS; intros ? ?; apply simple_reg_inner|].
    intros [[[[[[[[[c0 c1] c2] c3] c4] c5] c6] c7] c8] c9].
    do 9 (apply nopar_bind; [apply nopar_add4|]; intros ?). apply nopar_add4.
  Qed.
  Lemma acc_l1 (R : loc -> Prop) x y k : valid x y k -> acc_in R (Wb x y LX LY) (l1_kernel b X Y At Bt x y k).
  Proof.
    intros (bx&by'&bk&->&->&->&?&?&?)%valid_split. clear HAt HBt. pose proof pos1 as (?&?&?). destruct Hok as (_&_&_&D5&D8).
    unfold l1_kernel. rewrite !Nat.div_mul by lia.
    apply acc_in_forS. intros x1 _ Hx1 Hx1'. apply acc_in_forS. intros y1 _ Hy1 Hy1'.
    destruct Hx1' as [qx Ex]; [lia|]. destruct Hy1' as [qy Ey]; [lia|]. rewrite Nat.add_0_l in Ex, Ey. subst x1 y1.
    pose proof (block_lt 5 LX qx 4 D5 ltac:(lia) ltac:(lia) ltac:(lia)). pose proof (block_lt 8 LY qy 7 D8 ltac:(lia) ltac:(lia) ltac:(lia)).
    assert (HW : forall r h, r < 5 -> h < 8 -> Wb (bx * LX) (by' * LY) LX LY (idCp, LX * LY * (bx * NY + by') + (qx * 5 + r) * LY + (qy * 8 + h))).
    { intros r h Hr Hh. exists (bx * LX + (qx * 5 + r)), (by' * LY + (qy * 8 + h)). split; [|lia].
      unfold PTiled.cell. destruct (div_mod_block LX bx (qx * 5 + r)) as [-> ->]; [lia|]. destruct (div_mod_block LY by' (qy * 8 + h)) as [-> ->]; [lia|].
      unfold tpos. f_equal. lia. }
    assert (HW1 : forall r v, r < 5 -> acc_in R (Wb (bx * LX) (by' * LY) LX LY) (add4 idCp (LX * LY * (bx * NY + by') + (qx * 5 + r) * LY + qy * 8) v)).
    { intros r v Hr. apply acc_add4. intros l Hl. rewrite <- Nat.add_assoc. apply HW; lia. }
    assert (HW2 : forall r v, r < 5 -> acc_in R (Wb (bx * LX) (by' * LY) LX LY) (add4 idCp (LX * LY * (bx * NY + by') + (qx * 5 + r) * LY + (qy * 8 + 4)) v)).
    { intros r v Hr. apply acc_add4. intros l Hl. rewrite <- !Nat.add_assoc. rewrite Nat.add_assoc. apply HW; lia. }
    unfold reg_block. apply acc_in_bind; [apply simple_acc, simple_forS; intros ? ?; apply simple_reg_inner|].
    intros [[[[[[[[[c0 c1] c2] c3] c4] c5] c6] c7] c8] c9].
    do 5 (apply acc_in_bind; [apply HW1; lia|]; intros ?). do 4 (apply acc_in_bind; [apply HW2; lia|]; intros ?). apply HW2; lia.
  Qed.
  Lemma Wb_mono x y wx wy x' y' wx' wy' l : x' <= x -> x + wx <= x' + wx' -> y' <= y -> y + wy <= y' + wy' -> Wb x y wx wy l -> Wb x' y' wx' wy' l.
  Proof. clear. intros ? ? ? ? (i&j&->&?&?). exists i, j. split; [done|lia]. Qed.
  Lemma nopar_task x y : nopar (kernel_tiled_task b X Y K At Bt x y).
  Proof. clear. unfold kernel_tiled_task. do 7 (apply nopar_forS; intros ? _). apply nopar_l1. Qed.
  Lemma acc_task (R : loc -> Prop) a c : a < nx -> c < ny ->
    acc_in R (Wb (a * L3_X b) (c * L3_Y b) (L3_X b) (L3_Y b)) (kernel_tiled_task b X Y K At Bt (a * L3_X b) (c * L3_Y b)).
  Proof.
    intros Ha Hc. clear HAt HBt. pose proof pos1 as (?&?&?). pose proof pos2 as (?&?&?). pose proof div_chain as (Dx&Dy&Dk).
    pose proof Hok as ((?&?&?)&(F1&F2&_)&_). unfold kernel_tiled_task.
    assert (HF : forall lo hi st (f : nat -> prog T unit) (W : loc -> Prop), 0 < st -> (forall x, x ∈ rng lo hi st -> acc_in R W (f x)) -> acc_in R W (forP lo hi st f)).
    { intros lo hi st f W Hst Hf. unfold forP. rewrite forS_step by done. apply acc_in_foldP. intros x _ Hx. by apply Hf. }
    apply HF; [done|]. intros k3 Hk3. apply elem_of_rng0 in Hk3 as (q&->&Hk3); [|done].
    apply HF; [done|]. intros x2 Hx2. apply HF; [done|]. intros y2 Hy2. apply HF; [done|]. intros k2 Hk2.
    apply (task_elems (fun x2 y2 k2 => acc_in R (Wb (a * L3_X b) (c * L3_Y b) (L3_X b) (L3_Y b)) (forP x2 (x2 + L2_X b) LX (fun l1_x => forP y2 (y2 + L2_Y b) LY (fun l1_y =>
      forP k2 (k2 + L2_K b) LK (fun l1_k => l1_kernel b X Y At Bt l1_x l1_y l1_k))))) (a * L3_X b) (c * L3_Y b) (q * L3_K b)); try assumption.
    - apply Nat.divide_mul_r. exact Dx.
    - nia.
    - apply Nat.divide_mul_r. exact Dy.
    - nia.
    - apply Nat.divide_mul_r. exact Dk.
    - rewrite EK in *. by apply mul_next.
    - intros. apply HF; [done|]. intros x1 Hx1. apply HF; [done|]. intros y1 Hy1. apply HF; [done|]. intros k1 Hk1.
      eapply acc_in_mono; [| |apply acc_l1; apply (lev1_valid x2 y2 k2); assumption]; [intros l Hl; left; exact Hl|].
      apply elem_of_rng in Hx1 as (q1&->&Hx1); [|done]. apply elem_of_rng in Hy1 as (q2&->&Hy1); [|done].
      destruct F1 as [n1 F1], F2 as [n2 F2]. rewrite F1, F2 in *.
      pose proof (mul_next q1 LX n1 ltac:(lia)). pose proof (mul_next q2 LY n2 ltac:(lia)).
      intros l. apply Wb_mono; lia.
  Qed.
  Lemma tasks_NoDup : NoDup tasks.
  Proof.
    clear HAt HBt. destruct Hok as ((?&?&?)&_). unfold tasks.
    assert (forall l l' : list nat, NoDup l -> NoDup l' -> NoDup (l ≫= fun x => l' ≫= fun y => [(x, y)])) as HN.
    { intros l l' Hl Hl'. induction Hl as [|x l Hx Hl IH]; [constructor|]. rewrite bind_cons. apply NoDup_app. split_and!.
      - rewrite bind_ret_fmap. apply NoDup_fmap_2; [intros ? ? [=]; done|done].
      - intros p (y&->%elem_of_list_singleton&Hy)%elem_of_list_bind (x'&(y'&E%elem_of_list_singleton&Hy')%elem_of_list_bind&Hx')%elem_of_list_bind. by simplify_eq.
      - exact IH. }
    apply HN; by apply NoDup_rng.
  Qed.
  Lemma drf_tasks : drf (parL tasks (fun t => kernel_tiled_task b X Y K At Bt t.1 t.2)).
  Proof.
    pose proof pos1 as (?&?&?). pose proof Hok as ((?&?&?)&_).
    apply (drf_parL _ _ (fun _ _ => False) (fun t => Wb t.1 t.2 (L3_X b) (L3_Y b))).
    - apply tasks_NoDup.
    - intros t _. apply nopar_drf, nopar_task.
    - intros t (a&c&->&Ha&Hc)%tasks_elem. by apply acc_task.
    - intros t t' l (a&c&->&Ha&Hc)%tasks_elem (a'&c'&->&Ha'&Hc')%tasks_elem Hne. cbn [fst snd].
      intros (i&j&->&Hi&Hj) [[]|(i'&j'&E&Hi'&Hj')]. apply (cell_inj b NY) in E as [-> ->]; [|done|done|done|nia|nia].
      apply in_block in Hi, Hj, Hi', Hj'; [|done..]. apply Hne. subst. done.
  Qed.
End Tiled2.

Lemma verify_ok b : blocks_ok b -> verify_blocking_setup b = true.
Proof.
  intros Hok. pose proof (pos1 b Hok) as (?&?&?). pose proof (pos2 b Hok) as (?&?&?).
  destruct Hok as (_&(D1&D2&D3)&(E1&E2&E3)&_). unfold verify_blocking_setup.
  assert (HM : forall a c, 0 < a -> (a | c) -> (c mod a =? 0) = true).
  { intros a c Ha Hd. apply Nat.eqb_eq, Nat.mod_divide; [lia|exact Hd]. }
  rewrite !HM by assumption. done.
Qed.

Section KernelTiled.
  Context {T : Type} `{NumOps T}.
  Context (b : blocks) (Hok : blocks_ok b) (N : nat) (A B : list T) (HA : length A = N * N) (HB : length B = N * N).
  Notation LX := (L1_X b). Notation LY := (L1_Y b). Notation LK := (L1_K b).
  Definition nX := cdiv N (L3_X b) * (L3_X b / LX).
  Definition nY := cdiv N (L3_Y b) * (L3_Y b / LY).
  Definition nK := cdiv N (L3_K b) * (L3_K b / LK).
  Lemma sizes : N + padding N (L3_X b) = nX * LX /\ N + padding N (L3_Y b) = nY * LY /\ N + padding N (L3_K b) = nK * LK.
  Proof.
    clear HA HB. pose proof (pos1 b Hok) as (P1&P2&P3). pose proof (div_chain b Hok) as (D1&D2&D3). pose proof Hok as ((?&?&?)&_).
    rewrite !round_up_padding by done. unfold round_up, nX, nY, nK.
    pose proof (divide_div_mul _ _ P1 D1) as E1. pose proof (divide_div_mul _ _ P2 D2) as E2.
    pose proof (divide_div_mul _ _ P3 D3) as E3. split_and!; nia.
  Qed.
  Lemma sizes_eq : nX * LX = cdiv N (L3_X b) * L3_X b /\ nY * LY = cdiv N (L3_Y b) * L3_Y b /\ nK * LK = cdiv N (L3_K b) * L3_K b.
  Proof.
    clear HA HB. pose proof sizes as (<-&<-&<-). pose proof Hok as ((?&?&?)&_). rewrite !round_up_padding by done. done.
  Qed.
  Lemma sizes_ge : N <= nX * LX /\ N <= nY * LY /\ N <= nK * LK.
  Proof. clear HA HB. pose proof sizes as (<-&<-&<-). lia. Qed.

  (** The local phases. *)
  Lemma prepare : exists Ap Bp At Bt,
    pad_A N (nX * LX) (nK * LK) A = Ret Ap /\ pad_B N (nY * LY) (nK * LK) B = Ret Bp /\ length Ap = nX * LX * (nK * LK) /\
    tile_A b (nX * LX) (nK * LK) Ap = Ret At /\ tile_B b (nY * LY) (nK * LK) Bp = Ret Bt /\
    (forall bx bk x k, bx < nX -> bk < nK -> x < LX -> k < LK ->
      At !! (LX * LK * (bk * nX + bx) + k * LX + x) = Some (pent N A (bx * LX + x) (bk * LK + k))) /\
    (forall by' bk y k, by' < nY -> bk < nK -> y < LY -> k < LK ->
      Bt !! (LY * LK * (bk * nY + by') + k * LY + y) = Some (pent N B (bk * LK + k) (by' * LY + y))).
  Proof.
    pose proof sizes_ge as (?&?&?). pose proof (pos1 b Hok) as (?&?&?).
    destruct (pad_A_ok N (nX * LX) (nK * LK) A) as (Ap&EA&LA&HAp); [done..|].
    destruct (pad_B_ok N (nY * LY) (nK * LK) B) as (Bp&EB&LB&HBp); [done..|].
    destruct (tile_A_ok b nX nK Ap (pent N A)) as (At&EAt&HAt); [done..|].
    destruct (tile_B_ok b nY nK Bp (pent N B)) as (Bt&EBt&HBt); [done..|].
    exists Ap, Bp, At, Bt. done.
  Qed.

  Definition rep_us : list (loc * (T -> T)) :=
    (seq 0 (nX * LX * (nY * LY)) ≫= fun i => [((idCp, i) : loc, fun _ => nzero)]) ++
    (tasks b nX nY ≫= fun t => task_us b nY nK (pent N A) (pent N B) t.1 t.2).
  Lemma contrib_rep i j : i < nX * LX -> j < nY * LY ->
    contrib (cell b nY i j) rep_us = (fun _ => nzero) :: (rng 0 (nK * LK) LK ≫= cs b (pent N A) (pent N B) i j).
  Proof.
    clear HA HB. intros Hi Hj. unfold rep_us. rewrite contrib_app.
    pose proof sizes_eq as (E1&E2&E3). rewrite (contrib_tasks b Hok nX nY nK _ _ _ _ _ E1 E2 E3) by done.
    pose proof (pos1 b Hok) as (?&?&?).
    destruct (cell_lt b nX nY ltac:(done) ltac:(done) ltac:(done) i j Hi Hj) as (p&->&Hp).
    rewrite contrib_bind, (bind_select _ _ p); [|apply NoDup_seq|apply elem_of_seq; lia|].
    - rewrite contrib_single_eq. done.
    - intros p' _ Hne. apply contrib_single_ne. intros [= E]. done.
  Qed.
  Lemma rep_us_elem u : u ∈ rep_us -> exists p, u.1 = (idCp, p) /\ p < nX * LX * (nY * LY).
  Proof.
    clear HA HB. intros [Hu|Hu]%elem_of_app.
    - apply elem_of_list_bind in Hu as (p&->%elem_of_list_singleton&Hp%elem_of_seq). exists p. split; [done|lia].
    - pose proof sizes_eq as (E1&E2&E3). pose proof (pos1 b Hok) as (?&?&?).
      pose proof (div_chain b Hok) as (Dx&Dy&Dk). pose proof Hok as ((?&?&?)&_). pose proof (pos2 b Hok) as (?&?&?).
      apply elem_of_list_bind in Hu as (t&Hu&Ht). apply (tasks_elem b Hok nX nY nK _ _ _ E1 E2 E3) in Ht as (a&c&->&Ha&Hc). cbn [fst snd] in Hu.
      apply elem_of_list_bind in Hu as (k&Hu&Hk). apply elem_of_rng0 in Hk as (q&->&Hk); [|done].
      apply elem_of_list_bind in Hu as (x2&Hu&Hx2). apply elem_of_list_bind in Hu as (y2&Hu&Hy2). apply elem_of_list_bind in Hu as (k2&Hu&Hk2).
      revert Hu. apply (task_elems b Hok nX nY nK _ _ _ E1 E2 E3 (fun x2 y2 k2 => u ∈ lev1 b nY (pent N A) (pent N B) x2 y2 k2 -> exists p, u.1 = (idCp, p) /\ p < nX * LX * (nY * LY))
        (a * L3_X b) (c * L3_Y b) (q * L3_K b)); try assumption.
      + apply Nat.divide_mul_r. exact Dx.
      + nia.
      + apply Nat.divide_mul_r. exact Dy.
      + nia.
      + apply Nat.divide_mul_r. exact Dk.
      + rewrite E3 in *. by apply mul_next.
      + intros ? ? ? ? ? ? _ _ _ _ Hu.
        apply elem_of_list_bind in Hu as (x1&Hu&Hx1). apply elem_of_list_bind in Hu as (y1&Hu&Hy1). apply elem_of_list_bind in Hu as (k1&Hu&Hk1).
        assert (Hv : valid b nX nY nK x1 y1 k1) by (apply (lev1_valid b Hok nX nY nK _ _ _ E1 E2 E3 x2 y2 k2); assumption).
        destruct (us1_elem b Hok nX nY nK _ _ _ _ _ _ Hv Hu) as (i&j&E&_&_&Hi&Hj).
        destruct (cell_lt b nX nY ltac:(done) ltac:(done) ltac:(done) i j Hi Hj) as (p&Ep&Hp). exists p. split; [|done]. etransitivity; [exact E|exact Ep].
  Qed.

  Section Body.
    Context (At Bt : list T).
    Context (HAt : forall bx bk x k, bx < nX -> bk < nK -> x < LX -> k < LK ->
      At !! (LX * LK * (bk * nX + bx) + k * LX + x) = Some (pent N A (bx * LX + x) (bk * LK + k))).
    Context (HBt : forall by' bk y k, by' < nY -> bk < nK -> y < LY -> k < LK ->
      Bt !! (LY * LK * (bk * nY + by') + k * LY + y) = Some (pent N B (bk * LK + k) (by' * LY + y))).
    Definition rep_body : prog T unit :=
      forP 0 (nX * LX * (nY * LY)) 1 (fun i => wr idCp i nzero) ;;;
      parL (tasks b nX nY) (fun t => kernel_tiled_task b (nX * LX) (nY * LY) (nK * LK) At Bt t.1 t.2).
    Lemma rep_does : does rep_body rep_us.
    Proof.
      pose proof sizes_eq as (E1&E2&E3). unfold rep_body, rep_us. apply does_bind.
      - replace (seq 0 (nX * LX * (nY * LY))) with (rng 0 (nX * LX * (nY * LY)) 1) by (by rewrite rng_1, Nat.sub_0_r).
        apply does_forP; [lia|]. intros i _. apply does_wr.
      - apply does_parL. intros t (a&c&->&Ha&Hc)%(tasks_elem b Hok nX nY nK _ _ _ E1 E2 E3).
        by apply (task_does b Hok nX nY nK At Bt _ _ HAt HBt _ _ _ E1 E2 E3).
    Qed.
    Lemma rep_drf : drf rep_body.
    Proof.
      pose proof sizes_eq as (E1&E2&E3). unfold rep_body. apply drf_bind.
      - apply drf_forS. intros i _ _ _. apply drf_wr.
      - intros _. by apply (drf_tasks b Hok nX nY nK At Bt _ _ _ E1 E2 E3).
    Qed.
    Lemma reps_run (reps : nat) (m : mem T) :
      (forall p, p < nX * LX * (nY * LY) -> m !! ((idCp, p) : loc) = Some (VD nzero)) ->
      exists m', run (forP 0 reps 1 (fun _ => rep_body)) m = Ok (tt, m') /\
        forall i j, i < nX * LX -> j < nY * LY ->
          m' !! cell b nY i j = Some (VD (if reps =? 0 then nzero else
            dot_chunks LK (fun k => nmul (pent N A i k) (pent N B k j)) (nK * LK))).
    Proof.
      intros Hm. pose proof sizes_eq as (E1&E2&E3). pose proof (pos1 b Hok) as (?&?&?).
      assert (Hd : does (forP 0 reps 1 (fun _ => rep_body)) (rng 0 reps 1 ≫= fun _ => rep_us)).
      { apply does_forP; [lia|]. intros _ _. apply rep_does. }
      assert (Hp : present (rng 0 reps 1 ≫= fun _ => rep_us) m).
      { intros u (x&(p&E&Hp)%rep_us_elem&_)%elem_of_list_bind. exists nzero. etransitivity; [|exact (Hm p Hp)]. f_equal. exact E. }
      eexists. split; [exact (Hd m Hp)|]. intros i j Hi Hj. rewrite applyM_lookup.
      destruct (cell_lt b nX nY ltac:(done) ltac:(done) ltac:(done) i j Hi Hj) as (p&E&Hp').
      assert (m !! cell b nY i j = Some (VD nzero)) as -> by (rewrite E; by apply Hm).
      cbn [fmap option_fmap option_map liftD]. do 2 f_equal. rewrite contrib_bind, rng_1, Nat.sub_0_r.
      destruct reps as [|r]; [done|]. cbn [Nat.eqb]. rewrite seq_S, bind_app, fold_upd_app. cbn [mbind list_bind]. rewrite app_nil_r, contrib_rep by done.
      rewrite <- (chunks_value b Hok nX nY nK _ _ _ _ _ E1 E2 E3). done.
    Qed.
  End Body.

  Lemma kernel_tiled_eq transposed reps : exists At Bt,
    (forall bx bk x k, bx < nX -> bk < nK -> x < LX -> k < LK ->
      At !! (LX * LK * (bk * nX + bx) + k * LX + x) = Some (pent N A (bx * LX + x) (bk * LK + k))) /\
    (forall by' bk y k, by' < nY -> bk < nK -> y < LY -> k < LK ->
      Bt !! (LY * LK * (bk * nY + by') + k * LY + y) = Some (pent N B (bk * LK + k) (by' * LY + y))) /\
    kernel_tiled_matrix_multiply b N A B transposed reps =
      (valloc idCp (nX * LX * (nY * LY)) nzero ;;; forP 0 reps 1 (fun _ => rep_body At Bt) ;;; untile_C b N (nX * LX) (nY * LY)).
  Proof.
    destruct prepare as (Ap&Bp&At&Bt&E1&E2&_&E3&E4&H1&H2). exists At, Bt. split_and!; [exact H1|exact H2|].
    unfold kernel_tiled_matrix_multiply. rewrite verify_ok by done. cbn [negb]. pose proof sizes as (->&->&->).
    rewrite E1. cbn [pbind]. rewrite E2. cbn [pbind]. rewrite E3. cbn [pbind]. rewrite E4. cbn [pbind]. done.
  Qed.
  Lemma kernel_tiled_run (transposed : bool) (reps : nat) :
    drf (kernel_tiled_matrix_multiply b N A B transposed reps) /\
    exists C m, run (kernel_tiled_matrix_multiply b N A B transposed reps) ∅ = Ok (C, m) /\
      is_matrix N (if reps =? 0 then fun _ _ => nzero else tiled_entry b N A B) C.
  Proof.
    destruct (kernel_tiled_eq transposed reps) as (At&Bt&HAt&HBt&->). pose proof (pos1 b Hok) as (?&?&?). split.
    - apply drf_bind; [apply drf_valloc|]. intros _. apply drf_bind.
      + apply drf_forS. intros i _ _ _. apply rep_drf.
      + intros _. apply nopar_drf, nopar_untile.
    - destruct (run_valloc idCp (nX * LX * (nY * LY)) (nzero : T) ∅) as (m1&Hr1&H1'&_).
      destruct (reps_run At Bt HAt HBt reps m1 H1') as (m2&Hr2&H2').
      pose proof sizes_ge as (?&?&?).
      destruct (run_untile b nX nY N ltac:(done) ltac:(done) ltac:(done) ltac:(done)
        (if reps =? 0 then fun _ _ => nzero else tiled_entry b N A B) m2) as (C&Hr3&HC).
      + intros i j Hi Hj. rewrite H2' by lia. do 2 f_equal. destruct (reps =? 0); [done|]. unfold tiled_entry.
        pose proof sizes_eq as (_&_&->). done.
      + exists C, m2. split; [|done]. by rewrite run_bind, Hr1, run_bind, Hr2.
  Qed.
End KernelTiled.
