(** Proofs about src/variants/combined.cpp. *)
From Verif Require Import Tools Tools2 MIter SpecIter PIter PIter2 PKernels PRecursive PLooped MTiled SpecTiled PTiled PTiled2 Erase.

Lemma gpoint2 m0 m1 x0 x1 s0 s1 c0 c1 x y :
  ecount m0 x0 s0 = c0 -> ecount m1 x1 s1 = c1 -> x < c0 -> y < c1 ->
  gpoint [m0; m1] [x0; x1] [s0; s1] (y * c0 + x) = [m0 + x * s0; m1 + y * s1].
Proof.
  intros E0 E1 Hx Hy. unfold gpoint. cbn [ecounts digits at_dig]. rewrite E0, E1.
  replace (y * c0 + x) with (x + y * c0) by lia. rewrite Nat.mod_add, Nat.mod_small, Nat.div_add, Nat.div_small by lia. rewrite Nat.add_0_l, Nat.mod_small by done. done.
Qed.
Lemma cdiv_mul n L : 0 < L -> cdiv (n * L) L = n.
Proof.
  intros HL. pose proof (cdiv_exact (n * L) L HL ltac:(exists n; reflexivity)) as E. nia.
Qed.
Lemma ecount_mul m n L : 0 < L -> 0 < n -> ecount m (m + n * L) L = n.
Proof. intros HL Hn. unfold ecount. replace (m + n * L - m) with (n * L) by lia. rewrite cdiv_mul by done. lia. Qed.
Lemma ecount_none m s : 0 < s -> ecount m m s = 1.
Proof. intros Hs. unfold ecount. rewrite Nat.sub_diag. unfold cdiv. rewrite Nat.div_small by lia. done. Qed.

Lemma bt : bool_decide (true = true) = true. Proof. done. Qed.
Lemma bf : bool_decide (false = true) = false. Proof. done. Qed.
Lemma bt' : bool_decide (false = false) = true. Proof. done. Qed.
Lemma bf' : bool_decide (true = false) = false. Proof. done. Qed.

(** The points visited by the blocking of combined.cpp:177-182. *)
Section Vis.
  Context (b : blocks) (Hok : blocks_ok b).
  Definition cconf : list (list nat * list bool) :=
    [([L3_X b; L3_Y b; L3_K b], [true; true; false]); ([L2_X b; L2_Y b; L2_K b], [false; false; false]);
     ([L1_X b; L1_Y b; L1_K b], [false; false; false])].
  Lemma policy_eq : combined_policy b = Ok (Policy 3 cconf).
  Proof. done. Qed.
  Lemma cconf_nested : nested 3 cconf.
  Proof.
    pose proof (pos1 b Hok) as (?&?&?). pose proof (pos2 b Hok) as (?&?&?). destruct Hok as ((?&?&?)&(?&?&?)&(?&?&?)&_).
    assert (HD : forall x y z x' y' z', (x | x') -> (y | y') -> (z | z') -> divides_all [x; y; z] [x'; y'; z']).
    { intros. do 3 (apply Forall2_cons; split; [assumption|]). apply Forall2_nil. done. }
    assert (HP : forall x y z, 0 < x -> 0 < y -> 0 < z -> SpecIter.positive [x; y; z]).
    { intros. repeat constructor; assumption. }
    unfold cconf. cbn [nested]. split; [done|]. split; [done|]. split; [by apply HP|]. split; [apply HD; assumption|].
    split; [done|]. split; [done|]. split; [by apply HP|]. split; [apply HD; assumption|].
    split; [done|]. split; [done|]. split; [by apply HP|]. done.
  Qed.
  Lemma cconf_par : par_dims 3 cconf = [true; true; false].
  Proof. done. Qed.

  Lemma lexg_3 {Y} m0 m1 m2 x0 x1 x2 s0 s1 s2 (g : list nat -> list Y) :
    lexg [m0; m1; m2] [x0; x1; x2] [s0; s1; s2] ≫= g =
    rng m0 x0 s0 ≫= fun x => rng m1 x1 s1 ≫= fun y => rng m2 x2 s2 ≫= fun k => g [x; y; k].
  Proof.
    cbn [lexg]. rewrite bind_bind. apply bind_ext. intros x _. rewrite bind_fmap_l, bind_bind. apply bind_ext. intros y _.
    rewrite bind_fmap_l, bind_bind. apply bind_ext. intros k _. cbn [fmap list_fmap mbind list_bind]. by rewrite app_nil_r.
  Qed.
  Lemma vis_inner {Y} x3 y3 k3 (g : list nat -> list Y) :
    vis (tail cconf) [x3; y3; k3] [x3 + L3_X b; y3 + L3_Y b; k3 + L3_K b] ≫= g =
    rng k3 (k3 + L3_K b) (L2_K b) ≫= fun k2 => rng y3 (y3 + L3_Y b) (L2_Y b) ≫= fun y2 => rng x3 (x3 + L3_X b) (L2_X b) ≫= fun x2 =>
      rng x2 (x2 + L2_X b) (L1_X b) ≫= fun x1 => rng y2 (y2 + L2_Y b) (L1_Y b) ≫= fun y1 => rng k2 (k2 + L2_K b) (L1_K b) ≫= fun k1 => g [x1; y1; k1].
  Proof.
    pose proof (pos2 b Hok) as (P1&P2&P3). destruct Hok as ((Q1&Q2&Q3)&_&([n1 E1]&[n2 E2]&[n3 E3])&_).
    unfold cconf. cbn [tail]. rewrite vis_step, bind_bind. unfold partials. cbn [coords count_flag]. rewrite !bool_decide_false by done.
    rewrite !Nat.mul_1_l. cbn [seq fmap list_fmap mbind list_bind]. rewrite app_nil_r.
    unfold curs. cbn [fill count_flag]. rewrite !bool_decide_true by done. rewrite Nat.mul_1_r.
    replace (x3 + L3_X b - x3) with (L3_X b) by lia. replace (y3 + L3_Y b - y3) with (L3_Y b) by lia. replace (k3 + L3_K b - k3) with (L3_K b) by lia.
    rewrite E1, E2, E3, !cdiv_mul by done.
    assert (0 < n1 /\ 0 < n2 /\ 0 < n3) as (?&?&?) by (split_and!; nia).
    rewrite bind_fmap_l. rewrite bind_bind.
    replace (n1 * (n2 * n3)) with (n3 * n2 * n1) by lia. rewrite seq_split3.
    rewrite (rng_exact k3) by done. rewrite bind_fmap_l. apply bind_ext. intros z Hz%elem_of_seq.
    rewrite (rng_exact y3) by done. rewrite bind_fmap_l. apply bind_ext. intros y Hy%elem_of_seq.
    rewrite (rng_exact x3) by done. rewrite bind_fmap_l. apply bind_ext. intros x Hx%elem_of_seq.
    rewrite (gpoint3 _ _ _ _ _ _ _ _ _ n1 n2 n3); [|by apply ecount_mul..|lia|lia|lia].
    cbn [vadd2 zip_with vis]. apply lexg_3.
  Qed.
  Context (nx ny nk : nat).
  Lemma vis_all {Y} (g : list nat -> list Y) :
    vis cconf [0; 0; 0] [nx * L3_X b; ny * L3_Y b; nk * L3_K b] ≫= g =
    rng 0 (ny * L3_Y b) (L3_Y b) ≫= fun y3 => rng 0 (nx * L3_X b) (L3_X b) ≫= fun x3 => rng 0 (nk * L3_K b) (L3_K b) ≫= fun k3 =>
      vis (tail cconf) [x3; y3; k3] [x3 + L3_X b; y3 + L3_Y b; k3 + L3_K b] ≫= g.
  Proof.
    pose proof Hok as ((Q1&Q2&Q3)&_). unfold cconf. rewrite vis_step, bind_bind. unfold partials. cbn [coords count_flag].
    rewrite bt, bf. rewrite !Nat.sub_0_r, !cdiv_mul by done. rewrite !Nat.mul_1_r.
    rewrite bind_fmap_l. replace (nx * ny) with (ny * nx) by lia. rewrite seq_split.
    rewrite !rng_0_exact by done. rewrite bind_fmap_l. apply bind_ext. intros y Hy%elem_of_seq.
    rewrite bind_fmap_l. apply bind_ext. intros x Hx%elem_of_seq.
    assert (Hg2 : gpoint [0; 0] [nx * L3_X b; ny * L3_Y b] [L3_X b; L3_Y b] (y * nx + x) = [x * L3_X b; y * L3_Y b]).
    { rewrite (gpoint2 0 0 _ _ _ _ nx ny); [done| | |lia|lia].
      - apply (ecount_mul 0); [done|lia].
      - apply (ecount_mul 0); [done|lia]. }
    rewrite Hg2. unfold curs. cbn [fill count_flag]. rewrite bf', bt'. rewrite Nat.sub_0_r, cdiv_mul by done.
    rewrite !Nat.mul_1_l, Nat.mul_1_r. rewrite bind_bind, !bind_fmap_l. apply bind_ext. intros k Hk%elem_of_seq.
    assert (Hg3 : gpoint [x * L3_X b; y * L3_Y b; 0] [x * L3_X b; y * L3_Y b; nk * L3_K b] [L3_X b; L3_Y b; L3_K b] k = [x * L3_X b; y * L3_Y b; k * L3_K b]).
    { replace k with ((k * 1 + 0) * 1 + 0) at 1 by lia.
      rewrite (gpoint3 _ _ _ _ _ _ _ _ _ 1 1 nk); [|by apply ecount_none..|apply (ecount_mul 0); [done|lia]|lia|lia|lia].
      rewrite !Nat.mul_0_l, !Nat.add_0_r, Nat.add_0_l. done. }
    rewrite Hg3. done.
  Qed.
End Vis.

Section Combined2.
  Context {T : Type} `{NumOps T}.
  Context (b : blocks) (Hok : blocks_ok b).
  Notation LX := (L1_X b). Notation LY := (L1_Y b). Notation LK := (L1_K b).
  Context (NX NY NK : nat).
  Notation X := (NX * LX). Notation Y := (NY * LY). Notation K := (NK * LK).
  Context (At Bt : list T) (fA fB : nat -> nat -> T).
  Context (HAt : forall bx bk x k, bx < NX -> bk < NK -> x < LX -> k < LK ->
    At !! (LX * LK * (bk * NX + bx) + k * LX + x) = Some (fA (bx * LX + x) (bk * LK + k))).
  Context (HBt : forall by' bk y k, by' < NY -> bk < NK -> y < LY -> k < LK ->
    Bt !! (LY * LK * (bk * NY + by') + k * LY + y) = Some (fB (bk * LK + k) (by' * LY + y))).
  Context (nx ny nk : nat) (EX : X = nx * L3_X b) (EY : Y = ny * L3_Y b) (EK : K = nk * L3_K b).
  Notation cell := (cell b NY).
  Notation chunk := (chunk b fA fB).
  Notation cs := (cs b fA fB).
  Notation valid := (valid b NX NY NK).
  Notation us1 := (us1 b NY fA fB).

  Definition cpts : list (list nat) := vis (cconf b) [0; 0; 0] [X; Y; K].
  Definition pus (p : list nat) : list (loc * (T -> T)) :=
    match p with [x; y; k] => us1 x y k | _ => [] end.
  Lemma cpts_bind {Z : Type} (g : list nat -> list Z) : cpts ≫= g =
    rng 0 Y (L3_Y b) ≫= fun y3 => rng 0 X (L3_X b) ≫= fun x3 => rng 0 K (L3_K b) ≫= fun k3 =>
    rng k3 (k3 + L3_K b) (L2_K b) ≫= fun k2 => rng y3 (y3 + L3_Y b) (L2_Y b) ≫= fun y2 => rng x3 (x3 + L3_X b) (L2_X b) ≫= fun x2 =>
      rng x2 (x2 + L2_X b) (L1_X b) ≫= fun x1 => rng y2 (y2 + L2_Y b) (L1_Y b) ≫= fun y1 => rng k2 (k2 + L2_K b) (L1_K b) ≫= fun k1 => g [x1; y1; k1].
  Proof.
    clear HAt HBt. unfold cpts. rewrite EX, EY, EK, vis_all by done. apply bind_ext. intros y3 _. apply bind_ext. intros x3 _. apply bind_ext. intros k3 _.
    by apply vis_inner.
  Qed.
  Lemma cpts_elem p : p ∈ cpts -> exists x y k, p = [x; y; k] /\ valid x y k.
  Proof.
    clear HAt HBt. intros Hp. assert (p ∈ cpts ≫= fun p => [p]) as Hp'.
    { apply elem_of_list_bind. exists p. split; [by apply elem_of_list_singleton|done]. }
    rewrite cpts_bind in Hp'. clear Hp. pose proof Hok as ((?&?&?)&_). pose proof (div_chain b Hok) as (Dx&Dy&Dk).
    apply elem_of_list_bind in Hp' as (y3&Hp&Hy3). apply elem_of_list_bind in Hp as (x3&Hp&Hx3). apply elem_of_list_bind in Hp as (k3&Hp&Hk3).
    apply elem_of_list_bind in Hp as (k2&Hp&Hk2). apply elem_of_list_bind in Hp as (y2&Hp&Hy2). apply elem_of_list_bind in Hp as (x2&Hp&Hx2).
    apply elem_of_list_bind in Hp as (x1&Hp&Hx1). apply elem_of_list_bind in Hp as (y1&Hp&Hy1). apply elem_of_list_bind in Hp as (k1&Hp&Hk1).
    apply elem_of_list_singleton in Hp as ->. exists x1, y1, k1. split; [done|].
    apply elem_of_rng0 in Hx3 as (a&->&Ha); [|done]. apply elem_of_rng0 in Hy3 as (c&->&Hc); [|done]. apply elem_of_rng0 in Hk3 as (q&->&Hq); [|done].
    revert Hx1 Hy1 Hk1. apply (task_elems b Hok NX NY NK _ _ _ EX EY EK (fun x2 y2 k2 => x1 ∈ rng x2 (x2 + L2_X b) LX -> y1 ∈ rng y2 (y2 + L2_Y b) LY -> k1 ∈ rng k2 (k2 + L2_K b) LK -> valid x1 y1 k1)
        (a * L3_X b) (c * L3_Y b) (q * L3_K b)); try assumption.
    - apply Nat.divide_mul_r. exact Dx.
    - rewrite EX in *. by apply mul_next.
    - apply Nat.divide_mul_r. exact Dy.
    - rewrite EY in *. by apply mul_next.
    - apply Nat.divide_mul_r. exact Dk.
    - rewrite EK in *. by apply mul_next.
    - intros ? ? ? ? ? ? _ _ _ _ Hx1 Hy1 Hk1. apply (lev1_valid b Hok NX NY NK _ _ _ EX EY EK x2 y2 k2); assumption.
  Qed.
  (** Each cell receives the chunks in ascending order. *)
  Lemma contrib_lev2c x y k i j : (LX | x) -> x + L3_X b <= X -> (LY | y) -> y + L3_Y b <= Y -> (LK | k) -> i < X -> j < Y ->
    contrib (cell i j) (rng k (k + L3_K b) (L2_K b) ≫= fun k2 => rng y (y + L3_Y b) (L2_Y b) ≫= fun y2 => rng x (x + L3_X b) (L2_X b) ≫= fun x2 => lev1 b NY fA fB x2 y2 k2) =
    if decide (x <= i < x + L3_X b) then if decide (y <= j < y + L3_Y b) then rng k (k + L3_K b) LK ≫= cs i j else [] else [].
  Proof.
    clear HAt HBt. intros Dx Hx Dy Hy Dk Hi Hj. pose proof (pos1 b Hok) as (?&?&?). pose proof (pos2 b Hok) as (?&?&?).
    pose proof Hok as (_&(Fx&Fy&[nk' Ek'])&([nx' Ex]&[ny' Ey]&[nk'' Ek])&_). rewrite contrib_bind.
    rewrite (bind_ext _ (fun k2 => if decide (x <= i < x + L3_X b) then if decide (y <= j < y + L3_Y b) then rng k2 (k2 + L2_K b) LK ≫= cs i j else [] else [])).
    - rewrite !bind_if. repeat case_decide; [|done..]. rewrite Ek. apply (rng_refine _ _ _ nk'); [done|nia|done].
    - intros k2 Hk2. apply elem_of_rng in Hk2 as (q''&->&Hk2); [|done]. rewrite contrib_bind.
      transitivity (if decide (y <= j < y + ny' * L2_Y b) then if decide (x <= i < x + L3_X b) then
        rng (k + q'' * L2_K b) (k + q'' * L2_K b + L2_K b) LK ≫= cs i j else [] else []); [|rewrite <- Ey; repeat case_decide; done].
      rewrite Ey. apply sel_range; [done|]. intros q' Hq'. rewrite contrib_bind.
      transitivity (if decide (x <= i < x + nx' * L2_X b) then if decide (y + q' * L2_Y b <= j < y + q' * L2_Y b + L2_Y b) then
        rng (k + q'' * L2_K b) (k + q'' * L2_K b + L2_K b) LK ≫= cs i j else [] else []); [|rewrite <- Ex; repeat case_decide; done].
      rewrite Ex. apply sel_range; [done|]. intros q Hq. rewrite Ex, Ey in *. unfold lev1. rewrite (contrib_lev1 b Hok NX); try assumption.
      + unfold PTiled2.cs. repeat case_decide; done.
      + apply Nat.divide_add_r; [exact Dx|]. apply Nat.divide_mul_r. exact Fx.
      + nia.
      + apply Nat.divide_add_r; [exact Dy|]. apply Nat.divide_mul_r. exact Fy.
      + nia.
      + apply Nat.divide_add_r; [exact Dk|]. apply Nat.divide_mul_r. exists nk'. exact Ek'.
  Qed.
  Lemma contrib_cpts i j : i < X -> j < Y -> contrib (cell i j) (cpts ≫= pus) = rng 0 K LK ≫= cs i j.
  Proof.
    clear HAt HBt. intros Hi Hj. rewrite cpts_bind. cbn [pus].
    pose proof Hok as ((?&?&?)&_). pose proof (pos1 b Hok) as (?&?&?). pose proof (div_chain b Hok) as (Dx&Dy&[n En]). rewrite contrib_bind.
    transitivity (if decide (0 <= j < 0 + ny * L3_Y b) then rng 0 K LK ≫= cs i j else []); [|rewrite decide_True by lia; done].
    replace (rng 0 Y (L3_Y b)) with (rng 0 (0 + ny * L3_Y b) (L3_Y b)) by (f_equal; lia).
    apply sel_range; [done|]. intros q' Hq'. rewrite Nat.add_0_l, contrib_bind.
    transitivity (if decide (0 <= i < 0 + nx * L3_X b) then if decide (q' * L3_Y b <= j < q' * L3_Y b + L3_Y b) then rng 0 K LK ≫= cs i j else [] else []);
      [|rewrite decide_True by lia; done].
    replace (rng 0 X (L3_X b)) with (rng 0 (0 + nx * L3_X b) (L3_X b)) by (f_equal; lia).
    apply sel_range; [done|]. intros q Hq. rewrite Nat.add_0_l, contrib_bind.
    rewrite (bind_ext _ (fun k3 => if decide (q * L3_X b <= i < q * L3_X b + L3_X b) then if decide (q' * L3_Y b <= j < q' * L3_Y b + L3_Y b) then
      rng k3 (k3 + L3_K b) LK ≫= cs i j else [] else [])).
    - rewrite !bind_if. repeat case_decide; [|done..]. rewrite EK, <- (Nat.add_0_l (nk * L3_K b)). apply (rng_refine _ _ _ n); [done|nia|done].
    - intros k3 Hk3. apply elem_of_rng0 in Hk3 as (a&->&Ha); [|done]. apply contrib_lev2c; try assumption.
      + apply Nat.divide_mul_r. exact Dx.
      + nia.
      + apply Nat.divide_mul_r. exact Dy.
      + nia.
      + apply Nat.divide_mul_r. exists n. exact En.
  Qed.

  (** The callback without the flag. *)
  Definition callback0 (p : list nat) : prog T unit :=
    let! l1_x := ofres (lget p 0) in
    let! l1_y := ofres (lget p 1) in
    let! l1_k := ofres (lget p 2) in
    l1_kernel b X Y At Bt l1_x l1_y l1_k.
  Definition iter0 : prog T unit := iterate_indices 3 (Policy 3 (cconf b)) [0; 0; 0] [X; Y; K] callback0.
  Lemma callback0_does p : p ∈ cpts -> does (callback0 p) (pus p).
  Proof. intros (x&y&k&->&Hv)%cpts_elem. unfold callback0. cbn [lget lookup list_lookup ofres pbind pus]. by apply (l1_does' b Hok NX NY NK). Qed.
  Lemma iter0_does : does iter0 (cpts ≫= pus).
  Proof.
    intros m Hm. unfold iter0, iterate_indices. cbn [pconf]. rewrite run_iterate; [|by apply cconf_nested|done|done].
    revert m Hm. change (does (foldP cpts (fun p (_ : unit) => callback0 p) tt) (cpts ≫= pus)). apply does_foldP. intros p Hp. by apply callback0_does.
  Qed.
  Lemma iter0_drf : drf iter0.
  Proof.
    unfold iter0, iterate_indices. cbn [pconf]. clear HAt HBt. pose proof (pos1 b Hok) as (?&?&?).
    apply (drf_iterate (fun _ _ => False) (fun p => match p with [x; y; k] => Wb b NY x y LX LY | _ => fun _ => False end)); [by apply cconf_nested|done|done| | |].
    - intros p (x&y&k&->&Hv)%cpts_elem. apply nopar_drf, nopar_l1.
    - intros p (x&y&k&->&Hv)%cpts_elem. unfold callback0. cbn [lget lookup list_lookup ofres pbind]. by apply (acc_l1 b Hok NX NY NK _ _ _ _ _ EX EY EK).
    - intros p p' l (x&y&k&->&Hv)%cpts_elem (x'&y'&k'&->&Hv')%cpts_elem Hne (i&j&->&Hi&Hj) [[]|(i'&j'&E&Hi'&Hj')].
      rewrite cconf_par in Hne. cbn [coords] in Hne.
      apply valid_split in Hv as (bx&by'&bk&->&->&->&?&?&?). apply valid_split in Hv' as (bx'&by''&bk'&->&->&->&?&?&?).
      apply (cell_inj b NY) in E as [-> ->]; [|done|done|done|nia|nia].
      apply in_block in Hi, Hj, Hi', Hj'; [|done..]. apply Hne. subst. done.
  Qed.
  Lemma pus_elem u : u ∈ cpts ≫= pus -> exists p, u.1 = (idCp, p) /\ p < X * Y.
  Proof.
    clear HAt HBt. intros (p&Hu&(x&y&k&->&Hv)%cpts_elem)%elem_of_list_bind. cbn [pus] in Hu. pose proof (pos1 b Hok) as (?&?&?).
    destruct (us1_elem b Hok NX NY NK _ _ _ _ _ _ Hv Hu) as (i&j&E&_&_&Hi&Hj).
    destruct (cell_lt b NX NY ltac:(done) ltac:(done) ltac:(done) i j Hi Hj) as (p&Ep&Hp). exists p. split; [|done]. etransitivity; [exact E|exact Ep].
  Qed.
  Lemma chunk_cs i j : (rng 0 K LK ≫= cs i j) = (fun q v => nadd v (dot (fun k => nmul (fA i k) (fB k j)) (seq (q * LK) LK))) <$> seq 0 NK.
  Proof.
    clear HAt HBt. pose proof (pos1 b Hok) as (?&?&?). unfold PTiled2.cs. rewrite bind_ret_fmap, rng_0_exact by done.
    rewrite <- list_fmap_compose. done.
  Qed.
  Lemma iters_run (reps : nat) (m : mem T) :
    (forall p, p < X * Y -> m !! ((idCp, p) : loc) = Some (VD nzero)) ->
    exists m', run (forP 0 reps 1 (fun _ => iter0)) m = Ok (tt, m') /\
      forall i j, i < X -> j < Y ->
        m' !! cell i j = Some (VD (dot (fun q => dot (fun k => nmul (fA i k) (fB k j)) (seq (q * LK) LK)) (seq 0 reps ≫= fun _ => seq 0 NK))).
  Proof.
    intros Hm. pose proof (pos1 b Hok) as (?&?&?).
    assert (Hd : does (forP 0 reps 1 (fun _ => iter0)) (rng 0 reps 1 ≫= fun _ => cpts ≫= pus)).
    { apply does_forP; [lia|]. intros _ _. apply iter0_does. }
    assert (Hp : present (rng 0 reps 1 ≫= fun _ => cpts ≫= pus) m).
    { intros u (x&(p&E&Hp)%pus_elem&_)%elem_of_list_bind. exists nzero. etransitivity; [|exact (Hm p Hp)]. f_equal. exact E. }
    eexists. split; [exact (Hd m Hp)|]. intros i j Hi Hj. rewrite applyM_lookup.
    destruct (cell_lt b NX NY ltac:(done) ltac:(done) ltac:(done) i j Hi Hj) as (p&E&Hp').
    assert (m !! cell i j = Some (VD nzero)) as -> by (rewrite E; by apply Hm).
    cbn [fmap option_fmap option_map liftD]. do 2 f_equal. rewrite contrib_bind, rng_1, Nat.sub_0_r.
    rewrite (bind_ext _ (fun _ => (fun q v => nadd v (dot (fun k => nmul (fA i k) (fB k j)) (seq (q * LK) LK))) <$> seq 0 NK)).
    - rewrite <- fmap_bind_r. unfold dot at 2. generalize (seq 0 reps ≫= (fun _ => seq 0 NK)). generalize (nzero : T).
      intros z ks. revert z. induction ks as [|q ks IH]; intros z; [done|]. cbn [fmap list_fmap foldl]. rewrite <- IH. done.
    - intros _ _. rewrite contrib_cpts by done. apply chunk_cs.
  Qed.
End Combined2.
