(** Proofs about src/variants/semi.cpp. *)
From Verif Require Import Tools Tools2 MIter SpecIter PIter PIter2 MKernels PKernels MRecursive PRecursive MVariants.

Section PSemi.
  Context {T : Type} `{NumOps T}.
  Context (N : nat).

  Definition pts2 : list (list nat) := seq 0 N ≫= fun x => seq 0 N ≫= fun y => [[x; y]].
  Lemma lexg2 : lexg [0; 0] [N; N] [1; 1] = pts2.
  Proof.
    cbn [lexg]. rewrite !rng_1, Nat.sub_0_r. unfold pts2. apply bind_ext. intros x _.
    rewrite fmap_bind_r. apply bind_ext. intros y _. done.
  Qed.
  Definition copy_body (dst : arr) (src : nat -> prog T T) (p : list nat) : prog T unit :=
    let! x := ofres (lget p 0) in
    let! y := ofres (lget p 1) in
    let! v := src (x * N + y) in
    wr dst (x * N + y) v.
  Lemma semi_copy_eq dst src : semi_copy N dst src = loop_nest 2 [0; 0] [N; N] [1; 1] (copy_body dst src).
  Proof. done. Qed.
  Lemma run_semi_copy dst (src : nat -> prog T T) (s : list T) m :
    length s = N * N ->
    (forall i t m', s !! i = Some t -> frozen (fun l => l.1 <> dst) m m' -> run (src i) m' = Ok (t, m')) ->
    (forall i, i < N * N -> exists t, m !! ((dst, i) : loc) = Some (VD t)) ->
    exists m', run (semi_copy N dst src) m = Ok (tt, m') /\ frozen (fun l => l.1 <> dst) m m' /\
      forall i, i < N * N -> m' !! ((dst, i) : loc) = VD <$> s !! i.
  Proof.
    intros Hs Hsrc Hdst. rewrite semi_copy_eq, run_loop_nest; [|done|done|done|repeat constructor]. rewrite lexg2.
    set (us := fun p : list nat => match p with [x; y] => [((dst, x * N + y) : loc, fun _ : T => ent N s x y)] | _ => [] end).
    assert (Hel : forall p, p ∈ pts2 -> exists x y, p = [x; y] /\ x < N /\ y < N).
    { intros p (x&(y&->%elem_of_list_singleton&Hy%elem_of_seq)%elem_of_list_bind&Hx%elem_of_seq)%elem_of_list_bind.
      exists x, y. split_and!; [done|lia|lia]. }
    assert (Hd : doesP (frozen (fun l => l.1 <> dst) m) (foldP pts2 (fun p _ => copy_body dst src p) tt) (pts2 ≫= us)).
    { apply doesP_foldP.
      - intros p (x&y&->&Hx&Hy)%Hel m' Hm' Hp. unfold copy_body. cbn [lget lookup list_lookup ofres pbind].
        rewrite run_bind, (Hsrc _ (ent N s x y)); [|by apply ent_lookup_sq|done]. by apply does_wr.
      - intros p (x&y&->&Hx&Hy)%Hel. apply frozen_stable. intros u ->%elem_of_list_singleton. simpl. by intros []. }
    rewrite Hd.
    - eexists. split; [reflexivity|]. split.
      + intros l Hl. rewrite applyM_lookup, contrib_none.
        * unfold fold_upd. simpl. by destruct (m !! l) as [[]|].
        * intros u (p&Hu&(x&y&->&Hx&Hy)%Hel)%elem_of_list_bind. apply elem_of_list_singleton in Hu as ->. simpl. by intros <-.
      + intros i Hi. rewrite applyM_lookup. destruct (Hdst i Hi) as [t ->]. simpl.
        assert (HN : N <> 0) by (intros ->; simpl in Hi; lia).
        pose proof (Nat.div_mod i N HN). pose proof (Nat.mod_upper_bound i N HN).
        assert (i / N < N) by (apply Nat.div_lt_upper_bound; lia).
        replace i with (i / N * N + i mod N) by lia. set (x := i / N) in *. set (y := i mod N) in *.
        rewrite (ent_lookup_sq N s x y) by done. simpl. do 2 f_equal.
        unfold pts2. rewrite bind_bind, contrib_bind, (bind_select _ _ x); [|apply NoDup_seq|apply elem_of_seq; lia|].
        * rewrite bind_bind, contrib_bind, (bind_select _ _ y); [|apply NoDup_seq|apply elem_of_seq; lia|].
          -- cbn [mbind list_bind us app]. by rewrite contrib_single_eq.
          -- intros y' Hy'%elem_of_seq Hne. cbn [mbind list_bind us app]. apply contrib_single_ne. intros [= He]. lia.
        * intros x' Hx'%elem_of_seq Hne. rewrite bind_bind, contrib_bind. apply bind_nil. intros y' Hy'%elem_of_seq.
          cbn [mbind list_bind us app]. apply contrib_single_ne. intros [= He]. apply mixed_inj in He; lia.
    - done.
    - intros u (p&Hu&(x&y&->&Hx&Hy)%Hel)%elem_of_list_bind. apply elem_of_list_singleton in Hu as ->. simpl.
      apply Hdst. by apply mixed_lt.
  Qed.

  (** ** The kernel *)
  Context (A B : list T) (HA : length A = N * N) (HB : length B = N * N).
  Definition inputs (m : mem T) : Prop := forall i, i < N * N ->
    m !! (([1], i) : loc) = VD <$> A !! i /\ m !! (([2], i) : loc) = VD <$> B !! i.
  Lemma rd_A m i k : inputs m -> i < N -> k < N -> run (rd [1] (i * N + k)) m = Ok (ent N A i k, m).
  Proof.
    intros Hm Hi Hk. apply run_rd. etransitivity; [apply (Hm (i * N + k)); by apply mixed_lt|].
    by rewrite (ent_lookup_sq N A i k).
  Qed.
  Lemma rd_B m i k : inputs m -> i < N -> k < N -> run (rd [2] (i * N + k)) m = Ok (ent N B i k, m).
  Proof.
    intros Hm Hi Hk. apply run_rd. etransitivity; [apply (Hm (i * N + k)); by apply mixed_lt|].
    by rewrite (ent_lookup_sq N B i k).
  Qed.
  Definition sterm (i j k : nat) : T := nmul (ent N A i k) (ent N B j k).
  Definition sdot (bi i j k : nat) : T := dot (sterm i j) (seq k bi).
  Lemma inner_run m x y k bi : inputs m -> x + 3 < N -> y + 1 < N -> k + bi <= N ->
    run (forS 0 bi 1 (semi_inner N x y k) (nzero, nzero, nzero, nzero, nzero, nzero, nzero, nzero)) m =
    Ok ((sdot bi (x + 0) (y + 0) k, sdot bi (x + 0) (y + 1) k, sdot bi (x + 1) (y + 0) k, sdot bi (x + 1) (y + 1) k,
         sdot bi (x + 2) (y + 0) k, sdot bi (x + 2) (y + 1) k, sdot bi (x + 3) (y + 0) k, sdot bi (x + 3) (y + 1) k), m).
  Proof.
    intros Hm Hx Hy Hk. rewrite forS_step by lia. rewrite rng_1, Nat.sub_0_r.
    assert (Hgen : forall n, n <= bi -> run (foldP (seq 0 n) (semi_inner N x y k) (nzero, nzero, nzero, nzero, nzero, nzero, nzero, nzero)) m =
      Ok ((sdot n (x + 0) (y + 0) k, sdot n (x + 0) (y + 1) k, sdot n (x + 1) (y + 0) k, sdot n (x + 1) (y + 1) k,
         sdot n (x + 2) (y + 0) k, sdot n (x + 2) (y + 1) k, sdot n (x + 3) (y + 0) k, sdot n (x + 3) (y + 1) k), m)).
    { induction n as [|n IH]; intros Hn; [done|]. rewrite seq_S, run_foldP_snoc, IH by lia.
      unfold semi_inner. rewrite <- !Nat.add_assoc.
      rewrite run_bind, rd_A by (done || lia). rewrite run_bind, rd_B by (done || lia). rewrite run_bind, rd_B by (done || lia).
      rewrite run_bind, rd_A by (done || lia). rewrite run_bind, rd_A by (done || lia). rewrite run_bind, rd_A by (done || lia).
      cbn [run]. unfold sdot. rewrite seq_S, !dot_snoc. done. }
    apply Hgen. done.
  Qed.
  Definition kus (bi : nat) (p : list nat) : list (loc * (T -> T)) :=
    match p with [x; y; k] =>
      seq 0 4 ≫= fun r => seq 0 2 ≫= fun c => [(([3], (x + r) * N + (y + c)) : loc, fun v => nadd v (sdot bi (x + r) (y + c) k))]
    | _ => [] end.
  Lemma semi_add_does i v : does (semi_add i v) [(([3], i) : loc, fun c => nadd c v)].
  Proof. apply (does_rmw [3] i (fun c => nadd c v)). Qed.
  Lemma inputs_stable us : (forall u, u ∈ us -> u.1.1 = [3]) -> stable inputs us.
  Proof.
    intros Hu m Hm i Hi. rewrite !applyM_lookup, !contrib_none.
    - destruct (Hm i Hi) as [-> ->]. unfold fold_upd. destruct (A !! i), (B !! i); done.
    - intros [[a i0] f] Hin He. apply Hu in Hin. simpl in *. by simplify_eq.
    - intros [[a i0] f] Hin He. apply Hu in Hin. simpl in *. by simplify_eq.
  Qed.
  Lemma kernel_does bi x y k : x + 3 < N -> y + 1 < N -> k + bi <= N ->
    doesP inputs (semi_kernel N bi [x; y; k]) (kus bi [x; y; k]).
  Proof.
    intros Hx Hy Hk m Hm Hp. unfold semi_kernel. cbn [lget lookup list_lookup ofres pbind].
    rewrite run_bind, inner_run by done. cbv beta iota.
    match goal with |- run ?p m = _ => assert (does p (kus bi [x; y; k])) as Hd end; [|by apply Hd].
    cbn [kus seq mbind list_bind app].
    repeat (apply (does_bind _ _ [_] _); [apply semi_add_does|]). apply semi_add_does.
  Qed.
  Lemma contrib_kus bi x y k i j : y + 1 < N -> j < N ->
    contrib (([3], i * N + j) : loc) (kus bi [x; y; k]) =
    if decide (x <= i < x + 4 /\ y <= j < y + 2) then [fun v => nadd v (sdot bi i j k)] else [].
  Proof.
    intros Hy Hj. unfold kus. rewrite contrib_bind. case_decide as Hin.
    - rewrite (bind_select _ _ (i - x)); [|apply NoDup_seq|apply elem_of_seq; lia|].
      + rewrite contrib_bind. rewrite (bind_select _ _ (j - y)); [|apply NoDup_seq|apply elem_of_seq; lia|].
        * replace (x + (i - x)) with i by lia. replace (y + (j - y)) with j by lia. apply contrib_single_eq.
        * intros c Hc%elem_of_seq Hne. apply contrib_single_ne. intros [= He]. apply mixed_inj in He; lia.
      + intros r Hr%elem_of_seq Hne. rewrite contrib_bind. apply bind_nil. intros c Hc%elem_of_seq.
        apply contrib_single_ne. intros [= He]. apply mixed_inj in He; lia.
    - apply bind_nil. intros r Hr%elem_of_seq. rewrite contrib_bind. apply bind_nil. intros c Hc%elem_of_seq.
      apply contrib_single_ne. intros [= He]. apply mixed_inj in He; lia.
  Qed.

  Definition spts (bi : nat) : list (list nat) :=
    rng 0 N 4 ≫= fun x => rng 0 N 2 ≫= fun y => rng 0 N bi ≫= fun k => [[x; y; k]].
  Lemma lexg3 bi : lexg [0; 0; 0] [N; N; N] [4; 2; bi] = spts bi.
  Proof.
    cbn [lexg]. unfold spts. apply bind_ext. intros x _. rewrite fmap_bind_r. apply bind_ext. intros y _.
    rewrite fmap_bind_r, fmap_bind_r. apply bind_ext. intros z _. done.
  Qed.
  Lemma spts_elem bi p : 0 < bi -> p ∈ spts bi <-> exists a b c, p = [a * 4; b * 2; c * bi] /\ a * 4 < N /\ b * 2 < N /\ c * bi < N.
  Proof.
    intros Hbi. unfold spts. rewrite elem_of_list_bind. split.
    - intros (x&(y&(k&->%elem_of_list_singleton&Hk)%elem_of_list_bind&Hy)%elem_of_list_bind&Hx).
      apply elem_of_rng0 in Hx as (a&->&Ha); [|lia]. apply elem_of_rng0 in Hy as (b&->&Hb); [|lia].
      apply elem_of_rng0 in Hk as (c&->&Hc); [|lia]. by exists a, b, c.
    - intros (a&b&c&->&Ha&Hb&Hc). exists (a * 4). split; [|apply elem_of_rng0; [lia|by exists a]].
      apply elem_of_list_bind. exists (b * 2). split; [|apply elem_of_rng0; [lia|by exists b]].
      apply elem_of_list_bind. exists (c * bi). split; [|apply elem_of_rng0; [lia|by exists c]].
      by apply elem_of_list_singleton.
  Qed.

  Lemma loop_run bi m : 0 < bi -> (4 | N) -> (bi | N) -> inputs m ->
    (forall i, i < N * N -> m !! (([3], i) : loc) = Some (VD nzero)) ->
    exists m', run (foldP (spts bi) (fun p _ => semi_kernel N bi p) tt) m = Ok (tt, m') /\
      frozen (fun l => l.1 <> [3]) m m' /\
      forall i j, i < N -> j < N -> m' !! (([3], i * N + j) : loc) = Some (VD (prod_t_chunks bi N A B i j)).
  Proof.
    intros Hbi H4 Hd Hm Hz.
    assert (Hx : forall a, a * 4 < N -> a * 4 + 3 < N) by (intros a Ha; apply block_lt; [exact H4|lia|lia|exact Ha]).
    assert (H2 : (2 | N)) by (destruct H4 as [q ->]; exists (q * 2); lia).
    assert (Hy : forall a, a * 2 < N -> a * 2 + 1 < N) by (intros a Ha; apply block_lt; [exact H2|lia|lia|exact Ha]).
    assert (Hk : forall a, a * bi < N -> a * bi + bi <= N).
    { intros a Ha. pose proof (block_lt bi N a (bi - 1) Hd Hbi ltac:(lia) Ha). lia. }
    assert (Hkus : forall u p, p ∈ spts bi -> u ∈ kus bi p -> exists i j f, u = ((([3], i * N + j) : loc), f) /\ i < N /\ j < N).
    { intros u p (a&b&c&->&Ha&Hb&Hc)%spts_elem Hu; [|done]. unfold kus in Hu.
      apply elem_of_list_bind in Hu as (r&Hu&Hr%elem_of_seq). apply elem_of_list_bind in Hu as (c'&Hu&Hc'%elem_of_seq).
      apply elem_of_list_singleton in Hu as ->. eexists (a * 4 + r), (b * 2 + c'), _. specialize (Hx a Ha). specialize (Hy b Hb).
      split_and!; [done|lia|lia]. }
    assert (Hdo : doesP inputs (foldP (spts bi) (fun p _ => semi_kernel N bi p) tt) (spts bi ≫= kus bi)).
    { apply doesP_foldP.
      - intros p (a&b&c&->&Ha&Hb&Hc)%spts_elem; [|done]. apply kernel_does; auto.
      - intros p Hp. apply inputs_stable. intros u Hu. destruct (Hkus u p Hp Hu) as (i&j&f&->&_). done. }
    rewrite Hdo.
    - eexists. split; [reflexivity|]. split.
      + intros l Hl. rewrite applyM_lookup, contrib_none.
        * unfold fold_upd. simpl. by destruct (m !! l) as [[]|].
        * intros u (p&Hu&Hp)%elem_of_list_bind He. destruct (Hkus u p Hp Hu) as (i&j&f&->&_). apply Hl. rewrite <- He. done.
      + intros i j Hi Hj. rewrite applyM_lookup, Hz by (by apply mixed_lt). cbn [fmap option_fmap option_map liftD]. do 2 f_equal.
        pose proof (Nat.div_mod i 4 ltac:(lia)). pose proof (Nat.mod_upper_bound i 4 ltac:(lia)).
        pose proof (Nat.div_mod j 2 ltac:(lia)). pose proof (Nat.mod_upper_bound j 2 ltac:(lia)).
        unfold spts. rewrite bind_bind, contrib_bind, (bind_select _ _ (i / 4 * 4)); [|apply NoDup_rng; lia|apply elem_of_rng0; [lia|exists (i / 4); lia]|].
        * rewrite bind_bind, contrib_bind, (bind_select _ _ (j / 2 * 2)); [|apply NoDup_rng; lia|apply elem_of_rng0; [lia|exists (j / 2); lia]|].
          -- rewrite bind_bind, contrib_bind.
             rewrite (bind_ext _ (fun k => [fun v => nadd v (sdot bi i j k)])).
             ++ rewrite bind_ret_fmap. unfold prod_t_chunks, dot_chunks. rewrite (divide_div_mul N bi Hbi Hd) at 1.
                rewrite rng_0_exact by done. rewrite <- list_fmap_compose.
                assert (forall ks z, fold_upd ((fun (k : nat) (v : T) => nadd v (sdot bi i j k)) ∘ (fun q => q * bi) <$> ks) z =
                  foldl (fun acc q => nadd acc (sdot bi i j (q * bi))) z ks) as Hf.
                { induction ks as [|q ks IH]; intros z; [done|]. cbn [fmap list_fmap foldl]. rewrite <- IH. done. }
                apply Hf.
             ++ intros k Hk'. cbn [mbind list_bind app]. rewrite app_nil_r.
                rewrite contrib_kus; [|apply Hy; lia|done]. rewrite decide_True by lia. done.
          -- intros y Hy' Hne. apply elem_of_rng0 in Hy' as (b&->&Hb); [|lia]. rewrite bind_bind, contrib_bind. apply bind_nil.
             intros k _. cbn [mbind list_bind app]. rewrite app_nil_r, contrib_kus; [|by apply Hy|done].
             rewrite decide_False; [done|]. lia.
        * intros x Hx' Hne. apply elem_of_rng0 in Hx' as (a&->&Ha); [|lia]. rewrite bind_bind, contrib_bind. apply bind_nil.
          intros y Hy'. apply elem_of_rng0 in Hy' as (b&->&Hb); [|lia]. rewrite bind_bind, contrib_bind. apply bind_nil.
          intros k _. cbn [mbind list_bind app]. rewrite app_nil_r, contrib_kus; [|by apply Hy|done].
          rewrite decide_False; [done|]. lia.
    - done.
    - intros u (p&Hu&Hp)%elem_of_list_bind. destruct (Hkus u p Hp Hu) as (i&j&f&->&Hi&Hj).
      eexists. apply Hz. by apply mixed_lt.
  Qed.

  (** ** Sequentiality *)
  Lemma nopar_execute_looped (f : list nat -> prog T unit) dim cur mn mx st args :
    (forall p, nopar (f p)) -> nopar (execute_looped dim cur mn mx st f args).
  Proof.
    intros Hf. revert cur args. induction dim as [|dim IH]; intros cur args; [apply Hf|]. cbn [execute_looped].
    destruct (lget mn cur); [|done]. destruct (lget mx cur); [|done]. destruct (lget st cur); [|done].
    cbn [ofres pbind]. apply nopar_forS. intros x []. apply IH.
  Qed.
  Lemma nopar_ofres {X : Type} (r : res X) : nopar (ofres (T := T) r).
  Proof. by destruct r. Qed.
  Lemma nopar_semi_copy dst (src : nat -> prog T T) : (forall i, nopar (src i)) -> nopar (semi_copy N dst src).
  Proof.
    intros Hs. rewrite semi_copy_eq. apply nopar_execute_looped. intros p. unfold copy_body.
    do 2 (apply nopar_bind; [apply nopar_ofres|]; intros ?). apply nopar_bind; [apply Hs|]. intros v. apply nopar_wr.
  Qed.
  Lemma nopar_semi_add i (v : T) : nopar (semi_add i v).
  Proof. apply nopar_bind; [apply nopar_rd|]. intros c. apply nopar_wr. Qed.
  Lemma nopar_kernel bi p : nopar (semi_kernel (T := T) N bi p).
  Proof.
    unfold semi_kernel. do 3 (apply nopar_bind; [apply nopar_ofres|]; intros ?). apply nopar_bind.
    - apply nopar_forS. intros k [[[[[[[c0 c1] c2] c3] c4] c5] c6] c7]. unfold semi_inner.
      do 6 (apply nopar_bind; [apply nopar_rd|]; intros ?). done.
    - intros [[[[[[[c0 c1] c2] c3] c4] c5] c6] c7]. do 7 (apply nopar_bind; [apply nopar_semi_add|]; intros ?). apply nopar_semi_add.
  Qed.
  Definition semi_loop (bi : nat) : prog T unit := loop_nest 3 [0; 0; 0] [N; N; N] [4; 2; bi] (semi_kernel N bi).
  Definition semi_tail (bi : nat) : prog T (list T) :=
    semi_loop bi ;;; semi_copy N [0] (rd [3]) ;;; vread [0] (N * N).
  Lemma semi_eq br bi : semi_matrix_multiply N A B br bi =
    (valloc [1] (N * N) nzero ;;; valloc [2] (N * N) nzero ;;; semi_copy N [1] (vget A) ;;; semi_copy N [2] (vget B) ;;;
     valloc [0] (N * N) nzero ;;; valloc [3] (N * N) nzero ;;; semi_tail bi).
  Proof. done. Qed.
  Lemma nopar_semi br bi : nopar (semi_matrix_multiply N A B br bi).
  Proof.
    rewrite semi_eq. do 2 (apply nopar_bind; [apply nopar_valloc|]; intros _).
    do 2 (apply nopar_bind; [apply nopar_semi_copy; intros i; apply nopar_vget|]; intros _).
    do 2 (apply nopar_bind; [apply nopar_valloc|]; intros _).
    apply nopar_bind; [apply nopar_execute_looped; intros p; apply nopar_kernel|]. intros _.
    apply nopar_bind; [apply nopar_semi_copy; intros i; apply nopar_rd|]. intros _. apply nopar_vread.
  Qed.

  Lemma noalloc_execute_looped (f : list nat -> prog T unit) dim cur mn mx st args :
    (forall p, noalloc (f p)) -> noalloc (execute_looped dim cur mn mx st f args).
  Proof.
    intros Hf. revert cur args. induction dim as [|dim IH]; intros cur args; [apply Hf|]. cbn [execute_looped].
    destruct (lget mn cur); [|done]. destruct (lget mx cur); [|done]. destruct (lget st cur); [|done].
    cbn [ofres pbind]. apply noalloc_forS. intros x []. apply IH.
  Qed.
  Lemma errD_loop_nest (E : err -> Prop) dim (f : list nat -> prog T unit) mn mx st :
    length mn = dim -> length mx = dim -> length st = dim -> SpecIter.positive st ->
    (forall p, p ∈ lexg mn mx st -> errD E (f p)) -> errD E (loop_nest dim mn mx st f).
  Proof.
    intros <- L1 L2 Hpos Hf. refine (execute_looped_all (errD E) f [] [] [] mn mx st [] _ _ _ _ _ _ _ _); try done.
    intros lo hi s body Hs Hb. unfold forP. rewrite forS_step by done. apply errD_foldP. intros c [] Hc. by apply Hb.
  Qed.
  Lemma lexg_shape2 p : p ∈ lexg [0; 0] [N; N] [1; 1] -> exists x y, p = [x; y].
  Proof.
    rewrite lexg2. intros (x&(y&->%elem_of_list_singleton&_)%elem_of_list_bind&_)%elem_of_list_bind. by exists x, y.
  Qed.
  Lemma errD_semi_copy (E : err -> Prop) dst (src : nat -> prog T T) : E EOob -> (forall i, errD E (src i)) -> errD E (semi_copy N dst src).
  Proof.
    intros HE Hs. rewrite semi_copy_eq. apply errD_loop_nest; [done|done|done|repeat constructor|]. intros p (x&y&->)%lexg_shape2.
    unfold copy_body. cbn [lget lookup list_lookup ofres pbind]. apply errD_bind; [apply Hs|]. intros v. by apply errD_wr.
  Qed.
  Lemma noalloc_semi_copy dst (src : nat -> prog T T) : (forall i, noalloc (src i)) -> noalloc (semi_copy N dst src).
  Proof.
    intros Hs. rewrite semi_copy_eq. apply noalloc_execute_looped. intros p. unfold copy_body.
    apply noalloc_bind; [by destruct (lget p 0)|intros ?]. apply noalloc_bind; [by destruct (lget p 1)|intros ?].
    apply noalloc_bind; [apply Hs|]. intros v. apply noalloc_wr.
  Qed.
  Lemma noalloc_semi_add i (v : T) : noalloc (semi_add i v).
  Proof. apply noalloc_bind; [apply noalloc_rd|]. intros c. apply noalloc_wr. Qed.
  Lemma noalloc_inner x y k k_inner acc : noalloc (semi_inner (T := T) N x y k k_inner acc).
  Proof.
    destruct acc as [[[[[[[c0 c1] c2] c3] c4] c5] c6] c7]. unfold semi_inner.
    do 6 (apply noalloc_bind; [apply noalloc_rd|]; intros ?). done.
  Qed.
  Lemma noalloc_kernel bi p : noalloc (semi_kernel (T := T) N bi p).
  Proof.
    unfold semi_kernel. apply noalloc_bind; [by destruct (lget p 0)|intros ?]. apply noalloc_bind; [by destruct (lget p 1)|intros ?].
    apply noalloc_bind; [by destruct (lget p 2)|intros ?]. apply noalloc_bind.
    - apply noalloc_forS. intros k acc. apply noalloc_inner.
    - intros [[[[[[[c0 c1] c2] c3] c4] c5] c6] c7]. do 7 (apply noalloc_bind; [apply noalloc_semi_add|]; intros ?). apply noalloc_semi_add.
  Qed.
  Lemma errD_semi_add (E : err -> Prop) i (v : T) : E EOob -> errD E (semi_add i v).
  Proof. intros HE. apply errD_bind; [by apply errD_rd|]. intros c. by apply errD_wr. Qed.
  Lemma errD_kernel (E : err -> Prop) bi x y k : E EOob -> errD E (semi_kernel (T := T) N bi [x; y; k]).
  Proof.
    intros HE. unfold semi_kernel. cbn [lget lookup list_lookup ofres pbind]. apply errD_bind.
    - apply errD_forS; [left; lia|]. intros ki [[[[[[[c0 c1] c2] c3] c4] c5] c6] c7] _. unfold semi_inner.
      do 6 (apply errD_bind; [by apply errD_rd|]; intros ?). done.
    - intros [[[[[[[c0 c1] c2] c3] c4] c5] c6] c7]. do 7 (apply errD_bind; [by apply errD_semi_add|]; intros ?). by apply errD_semi_add.
  Qed.

  (** State before the main loop. *)
  Lemma semi_prefix {X : Type} (k : prog T X) :
    exists m, inputs m /\ (forall i, i < N * N -> m !! (([3], i) : loc) = Some (VD nzero) /\ m !! (([0], i) : loc) = Some (VD nzero)) /\
      (forall l, N * N <= l.2 -> m !! l = None) /\ datm m /\
      run (valloc [1] (N * N) nzero ;;; valloc [2] (N * N) nzero ;;; semi_copy N [1] (vget A) ;;; semi_copy N [2] (vget B) ;;;
     valloc [0] (N * N) nzero ;;; valloc [3] (N * N) nzero ;;; k) ∅ = run k m.
  Proof.
    destruct (run_valloc [1] (N * N) (nzero : T) ∅) as (m1&Hr1&H1&F1).
    destruct (run_valloc [2] (N * N) (nzero : T) m1) as (m2&Hr2&H2&F2).
    destruct (run_semi_copy [1] (vget A) A m2) as (m3&Hr3&F3&H3).
    { done. }
    { intros i t m' Ht _. by rewrite (vget_lookup _ _ _ Ht). }
    { intros i Hi. exists nzero. rewrite F2 by (by left). by apply H1. }
    destruct (run_semi_copy [2] (vget B) B m3) as (m4&Hr4&F4&H4).
    { done. }
    { intros i t m' Ht _. by rewrite (vget_lookup _ _ _ Ht). }
    { intros i Hi. exists nzero. rewrite F3 by done. by apply H2. }
    destruct (run_valloc [0] (N * N) (nzero : T) m4) as (m5&Hr5&H5&F5).
    destruct (run_valloc [3] (N * N) (nzero : T) m5) as (m6&Hr6&H6&F6).
    exists m6. split_and!.
    - intros i Hi. split.
      + rewrite F6, F5, F4 by (done || by left). by apply H3.
      + rewrite F6, F5 by (by left). by apply H4.
    - intros i Hi. split; [by apply H6|]. rewrite F6 by (by left). by apply H5.
    - intros l Hl. rewrite F6, F5 by (by right).
      assert (m2 !! l = None) as Hm2 by (rewrite F2, F1 by (by right); apply lookup_empty).
      eapply (run_None (semi_copy N [2] (vget B)) m3); [|exact Hr4|].
      { apply noalloc_semi_copy. intros i. apply noalloc_vget. }
      eapply (run_None (semi_copy N [1] (vget A)) m2); [|exact Hr3|done].
      { apply noalloc_semi_copy. intros i. apply noalloc_vget. }
    - assert (Hstep : forall (p : prog T unit) m m', run p m = Ok (tt, m') -> errD (fun _ => True) p -> datm m -> datm m').
      { intros p m m' Hr He Hm. pose proof (run_errD _ p m He Hm) as Hd. by rewrite Hr in Hd. }
      eapply Hstep; [exact Hr6|apply errD_valloc|]. eapply Hstep; [exact Hr5|apply errD_valloc|].
      eapply Hstep; [exact Hr4|apply errD_semi_copy; [done|intros i; by apply errD_vget]|].
      eapply Hstep; [exact Hr3|apply errD_semi_copy; [done|intros i; by apply errD_vget]|].
      eapply Hstep; [exact Hr2|apply errD_valloc|]. eapply Hstep; [exact Hr1|apply errD_valloc|]. apply datm_empty.
    - by rewrite run_bind, Hr1, run_bind, Hr2, run_bind, Hr3, run_bind, Hr4, run_bind, Hr5, run_bind, Hr6.
  Qed.

  Lemma semi_order br bi : 0 < bi -> (4 | N) -> (bi | N) ->
    always (semi_matrix_multiply N A B br bi) (is_matrix N (prod_t_chunks bi N A B)).
  Proof.
    intros Hbi H4 Hd.
    destruct (semi_prefix (semi_tail bi)) as (m&Hin&Hz&_&_&Hr).
    destruct (loop_run bi m Hbi H4 Hd Hin) as (m1&Hr1&F1&HC); [intros i Hi; by apply Hz|].
    destruct (matrix_of_cells N (prod_t_chunks bi N A B) (fun p => m1 !! (([3], p) : loc))) as (C&HC'&Hcells); [done|].
    destruct (run_semi_copy [0] (rd [3]) C m1) as (m2&Hr2&F2&H2).
    { by destruct HC'. }
    { intros i t m' Ht Hf. apply run_rd. rewrite Hf by done.
      etransitivity; [apply (Hcells i)|by rewrite Ht]. destruct HC' as [<- _]. by eapply lookup_lt_Some. }
    { intros i Hi. exists nzero. rewrite F1 by done. by apply Hz. }
    eapply (always_intro _ C m2); [apply nopar_drf, nopar_semi| |done].
    rewrite semi_eq, Hr. unfold semi_tail, semi_loop. rewrite run_bind, run_loop_nest; [|done|done|done|repeat constructor; lia].
    rewrite lexg3, Hr1, run_bind, Hr2. apply run_vread; [by destruct HC'|done].
  Qed.
  Lemma semi_exact `{!Exact T} br bi : 0 < bi -> (4 | N) -> (bi | N) ->
    always (semi_matrix_multiply N A B br bi) (is_matrix N (prod_t_entry N A B)).
  Proof.
    intros Hbi H4 Hd. eapply must_mono; [|by apply semi_order]. intros C m.
    apply is_matrix_ext. intros i j _ _. by apply prod_t_chunks_exact.
  Qed.

  (** ** Misuse *)
  Lemma semi_tail_fails br bi E : (forall m, inputs m -> datm m -> (forall l, N * N <= l.2 -> m !! l = None) ->
       (forall i, i < N * N -> m !! (([3], i) : loc) = Some (VD nzero)) ->
       exists e, run (semi_loop bi) m = Fail e /\ E e) ->
    must_fail E (semi_matrix_multiply N A B br bi) ∅.
  Proof.
    intros Hf. destruct (semi_prefix (semi_tail bi)) as (m&Hin&Hz&Hno&Hdm&Hr).
    destruct (Hf m) as (e&He&HE); [done|done|done|intros i Hi; by apply Hz|].
    assert (run (semi_matrix_multiply N A B br bi) ∅ = Fail e) as Hrun.
    { rewrite semi_eq, Hr. unfold semi_tail. by rewrite run_bind, He. }
    pose proof (nopar_must_fail _ _ _ (nopar_semi br bi) Hrun) as Hm.
    revert Hm. generalize (semi_matrix_multiply N A B br bi), (∅ : mem T). clear -HE.
    intros p m. induction 1 as [e' m ->|p m Hex _ IH]; [by constructor|by constructor].
  Qed.
  Lemma kernel_oob bi x y k r0 ki m : (forall l, N * N <= l.2 -> m !! l = None) -> ki < bi -> N * N <= (x + 3) * N + k + ki ->
    run (semi_kernel N bi [x; y; k]) m <> Ok r0.
  Proof.
    intros Hno Hki Hoob Hr. unfold semi_kernel in Hr. cbn [lget lookup list_lookup ofres pbind] in Hr.
    apply run_bind_inv in Hr as (acc&m1&Hr&_). rewrite forS_step in Hr by lia.
    eapply (run_foldP_inv _ _ _ _ _ ki) in Hr as (acc'&m2&r'&Hdom&Hr).
    - destruct acc' as [[[[[[[c0 c1] c2] c3] c4] c5] c6] c7]. unfold semi_inner in Hr.
      do 5 (apply run_rd_inv in Hr as (?&_&Hr)). apply run_rd_inv in Hr as (t&Ht&_).
      assert (m2 !! (([1], (x + 3) * N + k + ki) : loc) = None) as Hn by (apply Hdom, Hno; done). pose proof (eq_trans (eq_sym Ht) Hn). done.
    - intros ki' acc'. apply noalloc_inner.
    - rewrite rng_1. apply elem_of_seq. lia.
  Qed.
  Lemma loop_inv bi p m r : 0 < bi -> run (semi_loop bi) m = Ok r -> p ∈ spts bi ->
    exists m1 r1, (forall l, m1 !! l = None <-> m !! l = None) /\ run (semi_kernel N bi p) m1 = Ok r1.
  Proof.
    intros Hbi Hr Hp. unfold semi_loop in Hr. rewrite run_loop_nest in Hr; [|done|done|done|repeat constructor; lia].
    rewrite lexg3 in Hr. eapply (run_foldP_inv _ _ _ _ _ p) in Hr as (s'&m1&r'&Hd&Hr); [by exists m1, r'| |done].
    intros q _. apply noalloc_kernel.
  Qed.
  Lemma semi_partial_blocks br bi : 0 < N -> 0 < bi -> ~ ((4 | N) /\ (bi | N)) ->
    must_fail (fun e => e = EOob) (semi_matrix_multiply N A B br bi) ∅.
  Proof.
    intros HN Hbi Hnd. apply semi_tail_fails. intros m Hin Hdm Hno Hz.
    destruct (run (semi_loop bi) m) as [[u m']|e] eqn:Hr.
    - exfalso. destruct (Nat.eq_dec (N mod 4) 0) as [E4|E4].
      + assert (H4 : (4 | N)) by (apply Nat.mod_divide; [lia|exact E4]).
        assert (Hni : N mod bi <> 0) by (intros E; apply Hnd; split; [exact H4|apply Nat.mod_divide; [lia|exact E]]).
        pose proof (Nat.div_mod N bi ltac:(lia)). pose proof (Nat.mod_upper_bound N bi ltac:(lia)).
        pose proof (divide_div_mul N 4 ltac:(lia) H4) as Hq. assert (N / 4 <> 0) by (intros Z; rewrite Z in Hq; lia).
        assert (N / bi * bi + N mod bi = N) by lia.
        destruct (loop_inv bi [(N / 4 - 1) * 4; 0 * 2; N / bi * bi] m _ Hbi Hr) as (m1&r1&Hd&Hr1).
        { apply spts_elem; [done|]. exists (N / 4 - 1), 0, (N / bi). split_and!; [done|lia|lia|lia]. }
        eapply (kernel_oob bi _ _ _ r1 (bi - 1) m1); [|lia| |exact Hr1].
        * intros l Hl. apply Hd, Hno, Hl.
        * replace ((N / 4 - 1) * 4 + 3) with (N - 1) by lia.
          assert ((N - 1) * N + N = N * N) by (destruct N; [lia|]; simpl; lia). lia.
      + pose proof (Nat.div_mod N 4 ltac:(lia)). pose proof (Nat.mod_upper_bound N 4 ltac:(lia)).
        destruct (loop_inv bi [N / 4 * 4; 0 * 2; 0 * bi] m _ Hbi Hr) as (m1&r1&Hd&Hr1).
        { apply spts_elem; [done|]. exists (N / 4), 0, 0. split_and!; [done|lia|lia|lia]. }
        eapply (kernel_oob bi _ _ _ r1 0 m1); [|lia| |exact Hr1].
        * intros l Hl. apply Hd, Hno, Hl.
        * assert (N * N <= (N / 4 * 4 + 3) * N) by (apply Nat.mul_le_mono_r; lia). lia.
    - exists e. split; [done|]. assert (errD (fun e => e = EOob) (semi_loop bi)) as HE.
      { apply errD_loop_nest; [done|done|done|repeat constructor; lia|]. intros p. rewrite lexg3.
        intros (a&b&c&->&_)%spts_elem; [|done]. by apply errD_kernel. }
      pose proof (run_errD _ _ m HE Hdm) as Hd. by rewrite Hr in Hd.
  Qed.

  Lemma loop_zero m : run (semi_loop 0) m = run (forP 0 N 4 (fun x => forP 0 N 2 (fun y => forP 0 N 0 (fun z => semi_kernel N 0 [x; y; z])))) m.
  Proof. done. Qed.
  Lemma kernel_zero x y z : semi_kernel (T := T) N 0 [x; y; z] =
    (semi_add ((x + 0) * N + (y + 0)) nzero ;;; semi_add ((x + 0) * N + (y + 1)) nzero ;;;
     semi_add ((x + 1) * N + (y + 0)) nzero ;;; semi_add ((x + 1) * N + (y + 1)) nzero ;;;
     semi_add ((x + 2) * N + (y + 0)) nzero ;;; semi_add ((x + 2) * N + (y + 1)) nzero ;;;
     semi_add ((x + 3) * N + (y + 0)) nzero ;;; semi_add ((x + 3) * N + (y + 1)) nzero).
  Proof. done. Qed.
  Lemma semi_zero_block br : 4 <= N -> must_fail (fun e => e = EDiverge) (semi_matrix_multiply N A B br 0) ∅.
  Proof.
    intros HN. apply semi_tail_fails. intros m Hin Hdm Hno Hz. exists EDiverge. split; [|done].
    rewrite loop_zero. unfold forP. rewrite forS_step, rng_cons by lia. cbn [foldP]. rewrite run_bind.
    rewrite forS_step, rng_cons by lia. cbn [foldP]. rewrite run_bind.
    unfold forS at 1. destruct (Nat.ltb_spec 0 N); [|lia]. cbn [andb Nat.eqb]. rewrite run_bind, kernel_zero.
    assert (Hd : does (semi_add ((0 + 0) * N + (0 + 0)) nzero ;;; semi_add ((0 + 0) * N + (0 + 1)) nzero ;;;
     semi_add ((0 + 1) * N + (0 + 0)) nzero ;;; semi_add ((0 + 1) * N + (0 + 1)) nzero ;;;
     semi_add ((0 + 2) * N + (0 + 0)) nzero ;;; semi_add ((0 + 2) * N + (0 + 1)) nzero ;;;
     semi_add ((0 + 3) * N + (0 + 0)) nzero ;;; semi_add ((0 + 3) * N + (0 + 1)) nzero)
      (seq 0 4 ≫= fun r => seq 0 2 ≫= fun c => [(([3], (0 + r) * N + (0 + c)) : loc, fun v => nadd v nzero)])).
    { repeat (apply (does_bind _ _ [_] _); [apply semi_add_does|]). apply semi_add_does. }
    rewrite Hd; [done|]. intros u Hu. apply elem_of_list_bind in Hu as (r&Hu&Hr%elem_of_seq).
    apply elem_of_list_bind in Hu as (c&Hu&Hc%elem_of_seq). apply elem_of_list_singleton in Hu as ->. exists nzero. apply Hz.
    apply mixed_lt; lia.
  Qed.
  Lemma semi_zero_block_small br : 0 < N < 4 -> must_fail (fun e => e = EOob) (semi_matrix_multiply N A B br 0) ∅.
  Proof.
    intros HN. apply semi_tail_fails. intros m Hin Hdm Hno Hz.
    assert (Hk : exists e, run (semi_kernel N 0 [0; 0; 0]) m = Fail e /\ e = EOob).
    { destruct (run (semi_kernel N 0 [0; 0; 0]) m) as [[u m']|e] eqn:Hr.
      - exfalso. rewrite kernel_zero in Hr.
        assert (Hsa : forall i (v : T) (q : prog T unit) m r, run (semi_add i v ;;; q) m = Ok r ->
           exists m', (forall l, m' !! l = None <-> m !! l = None) /\ run q m' = Ok r).
        { clear. intros i v q m r Hr. apply run_bind_inv in Hr as (a&m'&Hr&Hq). exists m'. split; [|done].
          intros l. eapply run_None; [apply noalloc_semi_add|exact Hr]. }
        apply Hsa in Hr as (m1&D1&Hr). apply Hsa in Hr as (m2&D2&Hr). apply Hsa in Hr as (m3&D3&Hr). apply Hsa in Hr as (m4&D4&Hr).
        apply Hsa in Hr as (m5&D5&Hr). apply Hsa in Hr as (m6&D6&Hr). apply run_bind_inv in Hr as (a&m7&Hr&_).
        unfold semi_add in Hr. apply run_rd_inv in Hr as (t&Ht&_).
        assert (m6 !! (([3], (0 + 3) * N + (0 + 0)) : loc) = None) as Hn; [|pose proof (eq_trans (eq_sym Ht) Hn); done].
        apply D6, D5, D4, D3, D2, D1, Hno. cbn [snd]. assert (N * N <= (0 + 3) * N) by (apply Nat.mul_le_mono_r; lia). lia.
      - exists e. split; [done|]. pose proof (run_errD (fun e => e = EOob) (semi_kernel N 0 [0; 0; 0]) m (errD_kernel _ _ _ _ _ eq_refl) Hdm) as Hd.
        by rewrite Hr in Hd. }
    destruct Hk as (e&He&->). exists EOob. split; [|done].
    rewrite loop_zero. unfold forP. rewrite forS_step, rng_cons by lia. cbn [foldP]. rewrite run_bind.
    rewrite forS_step, rng_cons by lia. cbn [foldP]. rewrite run_bind.
    unfold forS at 1. destruct (Nat.ltb_spec 0 N); [|lia]. cbn [andb Nat.eqb]. by rewrite run_bind, He.
  Qed.
End PSemi.
