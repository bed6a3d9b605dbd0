(** Proofs about the tiled kernels: padding, tiling, the L1 kernel. *)
From Verif Require Import Tools Tools2 MIter SpecIter PIter PIter2 PKernels PRecursive PLooped MTiled SpecTiled.

Lemma round_up_padding N L : 0 < L -> N + padding N L = round_up N L.
Proof.
  intros HL. unfold padding, round_up.
  pose proof (Nat.div_mod N L ltac:(lia)) as Hd. pose proof (Nat.mod_upper_bound N L ltac:(lia)) as Hm.
  pose proof (cdiv_spec N L) as Hc. set (n := cdiv N L) in *.
  destruct (decide (N mod L = 0)) as [E|E].
  - rewrite E, Nat.sub_0_r, Nat.eqb_refl.
    assert (n = N / L); [|nia]. pose proof (Hc (N / L) HL). pose proof (Hc (N / L - 1) HL).
    destruct (decide (N / L = 0)); nia.
  - rewrite (proj2 (Nat.eqb_neq _ _)) by lia.
    assert (n = N / L + 1); [|nia]. pose proof (Hc (N / L) HL). pose proof (Hc (N / L + 1) HL). nia.
Qed.
Lemma round_up_ge N L : 0 < L -> N <= round_up N L.
Proof. intros HL. rewrite <- round_up_padding by done. lia. Qed.

(** The unique block of a regular partition that contains [i]. *)
Lemma sel_range {Y} lo n st i (g : nat -> list Y) (v : list Y) : 0 < st ->
  (forall q, q < n -> g (lo + q * st) = if decide (lo + q * st <= i < lo + q * st + st) then v else []) ->
  rng lo (lo + n * st) st ≫= g = if decide (lo <= i < lo + n * st) then v else [].
Proof.
  intros Hst Hg. rewrite rng_exact by done. rewrite bind_fmap_l. case_decide as Hi.
  - pose proof (Nat.div_mod (i - lo) st ltac:(lia)). pose proof (Nat.mod_upper_bound (i - lo) st ltac:(lia)).
    assert ((i - lo) / st < n) by (apply Nat.div_lt_upper_bound; lia).
    rewrite (bind_select _ _ ((i - lo) / st)); [|apply NoDup_seq|apply elem_of_seq; lia|].
    + rewrite Hg by done. rewrite decide_True by nia. done.
    + intros q Hq%elem_of_seq Hne. rewrite Hg by lia. rewrite decide_False; [done|].
      intros Hin. apply Hne. destruct (decide (q < (i - lo) / st)); nia.
  - apply bind_nil. intros q Hq%elem_of_seq. rewrite Hg by lia. rewrite decide_False; [done|]. nia.
Qed.
Lemma rng_refine {Y} lo n st k st' (g : nat -> list Y) : 0 < st' -> 0 < k -> st = k * st' ->
  rng lo (lo + n * st) st ≫= (fun q => rng q (q + st) st' ≫= g) = rng lo (lo + n * st) st' ≫= g.
Proof.
  intros Hst Hk ->. rewrite rng_exact by lia. replace (n * (k * st')) with ((n * k) * st') by lia.
  rewrite (rng_exact lo (n * k)) by done. rewrite !bind_fmap_l, seq_split. apply bind_ext. intros q _.
  rewrite rng_exact by done. rewrite bind_fmap_l. apply bind_ext. intros r _. f_equal. lia.
Qed.
Lemma bind_if {X Y} (P : Prop) `{Decision P} (l : list X) (g : X -> list Y) :
  l ≫= (fun x => if decide P then g x else []) = if decide P then l ≫= g else [].
Proof. case_decide; [done|]. by apply bind_nil. Qed.

Section Loops.
  Context {T : Type}.
  Lemma forS_applyL n lo hi st (f : nat -> list T -> prog T (list T)) us s : 0 < st ->
    length s = n ->
    (forall x s, x ∈ rng lo hi st -> length s = n -> f x s = Ret (applyL (us x) s)) ->
    forS lo hi st f s = Ret (applyL (rng lo hi st ≫= us) s).
  Proof. intros Hst Hs Hf. rewrite forS_step by done. by apply foldP_applyL with (n := n). Qed.

  (** Four nested loops writing every cell of a tiled array once. *)
  Definition tile4_us (a b c d : nat) (f : nat -> nat -> nat -> nat -> nat * (T -> T)) : list (nat * (T -> T)) :=
    seq 0 a ≫= fun i => seq 0 b ≫= fun j => seq 0 c ≫= fun k => seq 0 d ≫= fun l => [f i j k l].
  Lemma forS_tile4 n a b c d (f : nat -> nat -> nat -> nat -> nat * (T -> T)) (body : nat -> nat -> nat -> nat -> list T -> prog T (list T)) s :
    length s = n ->
    (forall i j k l s, i < a -> j < b -> k < c -> l < d -> length s = n -> body i j k l s = Ret (applyL [f i j k l] s)) ->
    forS 0 a 1 (fun i s => forS 0 b 1 (fun j s => forS 0 c 1 (fun k s => forS 0 d 1 (body i j k) s) s) s) s =
    Ret (applyL (tile4_us a b c d f) s).
  Proof.
    intros Hs Hb. unfold tile4_us.
    rewrite (forS_applyL n _ _ _ _ (fun i => seq 0 b ≫= fun j => seq 0 c ≫= fun k => seq 0 d ≫= fun l => [f i j k l])); [by rewrite rng_1, Nat.sub_0_r|lia|done|].
    intros i s1 Hi Hs1. rewrite rng_1, Nat.sub_0_r in Hi. apply elem_of_seq in Hi.
    rewrite (forS_applyL n _ _ _ _ (fun j => seq 0 c ≫= fun k => seq 0 d ≫= fun l => [f i j k l])); [by rewrite rng_1, Nat.sub_0_r|lia|done|].
    intros j s2 Hj Hs2. rewrite rng_1, Nat.sub_0_r in Hj. apply elem_of_seq in Hj.
    rewrite (forS_applyL n _ _ _ _ (fun k => seq 0 d ≫= fun l => [f i j k l])); [by rewrite rng_1, Nat.sub_0_r|lia|done|].
    intros k s3 Hk Hs3. rewrite rng_1, Nat.sub_0_r in Hk. apply elem_of_seq in Hk.
    rewrite (forS_applyL n _ _ _ _ (fun l => [f i j k l])); [by rewrite rng_1, Nat.sub_0_r|lia|done|].
    intros l s4 Hl Hs4. rewrite rng_1, Nat.sub_0_r in Hl. apply elem_of_seq in Hl. apply Hb; (done || lia).
  Qed.
  Lemma contrib_tile4 a b c d (f : nat -> nat -> nat -> nat -> nat * (T -> T)) i j k l :
    i < a -> j < b -> k < c -> l < d ->
    (forall i' j' k' l', i' < a -> j' < b -> k' < c -> l' < d -> (f i' j' k' l').1 = (f i j k l).1 -> i' = i /\ j' = j /\ k' = k /\ l' = l) ->
    contrib (f i j k l).1 (tile4_us a b c d f) = [(f i j k l).2].
  Proof.
    intros Hi Hj Hk Hl Hinj. unfold tile4_us.
    assert (Hsing : forall u : nat * (T -> T), contrib (f i j k l).1 [u] = if decide (u.1 = (f i j k l).1) then [u.2] else []).
    { intros [u1 u2]. case_decide as E; cbn [fst snd] in *; [subst u1; apply contrib_single_eq|by apply contrib_single_ne]. }
    rewrite contrib_bind, (bind_select _ _ i); [|apply NoDup_seq|apply elem_of_seq; lia|].
    - rewrite contrib_bind, (bind_select _ _ j); [|apply NoDup_seq|apply elem_of_seq; lia|].
      + rewrite contrib_bind, (bind_select _ _ k); [|apply NoDup_seq|apply elem_of_seq; lia|].
        * rewrite contrib_bind, (bind_select _ _ l); [|apply NoDup_seq|apply elem_of_seq; lia|].
          -- rewrite Hsing. by rewrite decide_True.
          -- intros l' Hl'%elem_of_seq Hne. rewrite Hsing, decide_False; [done|]. intros E. apply Hinj in E; lia.
        * intros k' Hk'%elem_of_seq Hne. rewrite contrib_bind. apply bind_nil. intros l' Hl'%elem_of_seq.
          rewrite Hsing, decide_False; [done|]. intros E. apply Hinj in E; lia.
      + intros j' Hj'%elem_of_seq Hne. rewrite contrib_bind. apply bind_nil. intros k' Hk'%elem_of_seq.
        rewrite contrib_bind. apply bind_nil. intros l' Hl'%elem_of_seq.
        rewrite Hsing, decide_False; [done|]. intros E. apply Hinj in E; lia.
    - intros i' Hi'%elem_of_seq Hne. rewrite contrib_bind. apply bind_nil. intros j' Hj'%elem_of_seq.
      rewrite contrib_bind. apply bind_nil. intros k' Hk'%elem_of_seq.
      rewrite contrib_bind. apply bind_nil. intros l' Hl'%elem_of_seq.
      rewrite Hsing, decide_False; [done|]. intros E. apply Hinj in E; lia.
  Qed.
End Loops.

(** Position in a tiled array: tiles numbered p * n + q, each h x w. *)
Definition tpos (h w n p q c d : nat) : nat := (w * h) * (p * n + q) + c * w + d.
Lemma tpos_inj h w n p q c d p' q' c' d' : q < n -> q' < n -> c < h -> c' < h -> d < w -> d' < w ->
  tpos h w n p q c d = tpos h w n p' q' c' d' -> p = p' /\ q = q' /\ c = c' /\ d = d'.
Proof.
  unfold tpos. intros. assert (((p * n + q) * h + c) * w + d = ((p' * n + q') * h + c') * w + d') as E by nia.
  apply mixed_inj in E as [E ->]; [|done..]. apply mixed_inj in E as [E ->]; [|done..].
  apply mixed_inj in E as [-> ->]; done.
Qed.
Lemma tpos_lt h w n m p q c d : p < m -> q < n -> c < h -> d < w -> tpos h w n p q c d < (m * h) * (n * w).
Proof.
  intros. unfold tpos. assert ((w * h) * (p * n + q) + c * w + d = ((p * n + q) * h + c) * w + d) as -> by nia.
  pose proof (mixed_lt n m p q ltac:(done) ltac:(done)).
  pose proof (mixed_lt h (m * n) (p * n + q) c ltac:(done) ltac:(done)).
  pose proof (mixed_lt w (m * n * h) ((p * n + q) * h + c) d ltac:(done) ltac:(done)). nia.
Qed.

Section Loops2.
  Context {T : Type}.
  Definition tile2_us (a b : nat) (f : nat -> nat -> nat * (T -> T)) : list (nat * (T -> T)) :=
    seq 0 a ≫= fun i => seq 0 b ≫= fun j => [f i j].
  Lemma forS_tile2 n a b (f : nat -> nat -> nat * (T -> T)) (body : nat -> nat -> list T -> prog T (list T)) s :
    length s = n ->
    (forall i j s, i < a -> j < b -> length s = n -> body i j s = Ret (applyL [f i j] s)) ->
    forS 0 a 1 (fun i s => forS 0 b 1 (body i) s) s = Ret (applyL (tile2_us a b f) s).
  Proof.
    intros Hs Hb. unfold tile2_us.
    rewrite (forS_applyL n _ _ _ _ (fun i => seq 0 b ≫= fun j => [f i j])); [by rewrite rng_1, Nat.sub_0_r|lia|done|].
    intros i s1 Hi Hs1. rewrite rng_1, Nat.sub_0_r in Hi. apply elem_of_seq in Hi.
    rewrite (forS_applyL n _ _ _ _ (fun j => [f i j])); [by rewrite rng_1, Nat.sub_0_r|lia|done|].
    intros j s2 Hj Hs2. rewrite rng_1, Nat.sub_0_r in Hj. apply elem_of_seq in Hj. apply Hb; (done || lia).
  Qed.
  Lemma contrib_tile2 a b (f : nat -> nat -> nat * (T -> T)) i j :
    i < a -> j < b ->
    (forall i' j', i' < a -> j' < b -> (f i' j').1 = (f i j).1 -> i' = i /\ j' = j) ->
    contrib (f i j).1 (tile2_us a b f) = [(f i j).2].
  Proof.
    intros Hi Hj Hinj. unfold tile2_us.
    assert (Hsing : forall u : nat * (T -> T), contrib (f i j).1 [u] = if decide (u.1 = (f i j).1) then [u.2] else []).
    { intros [u1 u2]. case_decide as E; cbn [fst snd] in *; [subst u1; apply contrib_single_eq|by apply contrib_single_ne]. }
    rewrite contrib_bind, (bind_select _ _ i); [|apply NoDup_seq|apply elem_of_seq; lia|].
    - rewrite contrib_bind, (bind_select _ _ j); [|apply NoDup_seq|apply elem_of_seq; lia|].
      + rewrite Hsing. by rewrite decide_True.
      + intros j' Hj'%elem_of_seq Hne. rewrite Hsing, decide_False; [done|]. intros E. apply Hinj in E; lia.
    - intros i' Hi'%elem_of_seq Hne. rewrite contrib_bind. apply bind_nil. intros j' Hj'%elem_of_seq.
      rewrite Hsing, decide_False; [done|]. intros E. apply Hinj in E; lia.
  Qed.
  Lemma contrib_tile2_none a b (f : nat -> nat -> nat * (T -> T)) p :
    (forall i j, i < a -> j < b -> (f i j).1 <> p) -> contrib p (tile2_us a b f) = [].
  Proof.
    intros Hp. apply contrib_none. intros u (i&(j&->%elem_of_list_singleton&Hj%elem_of_seq)%elem_of_list_bind&Hi%elem_of_seq)%elem_of_list_bind.
    apply Hp; lia.
  Qed.
  (** An array whose written cells form an a x b grid, everything else keeps the initial value. *)
  Lemma tile2_lookup_in a b (f : nat -> nat -> nat * (T -> T)) s x i j :
    i < a -> j < b ->
    (forall i' j', i' < a -> j' < b -> (f i' j').1 = (f i j).1 -> i' = i /\ j' = j) ->
    s !! (f i j).1 = Some x -> applyL (tile2_us a b f) s !! (f i j).1 = Some ((f i j).2 x).
  Proof. intros Hi Hj Hinj Hs. rewrite applyL_lookup, contrib_tile2 by done. rewrite Hs. done. Qed.
End Loops2.

Section Pad.
  Context {T : Type} `{NumOps T}.
  Lemma pent_in N (M : list T) i j : i < N -> j < N -> pent N M i j = ent N M i j.
  Proof. intros. unfold pent. by rewrite decide_True. Qed.
  Lemma pent_out N (M : list T) i j : ~ (i < N /\ j < N) -> pent N M i j = nzero.
  Proof. intros. unfold pent. by rewrite decide_False. Qed.

  Lemma pad_A_ok N X K (A : list T) : length A = N * N -> N <= X -> N <= K ->
    exists Ap, pad_A N X K A = Ret Ap /\ length Ap = X * K /\
      forall i k, i < X -> k < K -> Ap !! (i * K + k) = Some (pent N A i k).
  Proof.
    intros HA HX HK. unfold pad_A.
    rewrite (forS_tile2 (X * K) N N (fun x k => (x * K + k, fun _ => ent N A x k))); [|by rewrite replicate_length|].
    - eexists. split; [reflexivity|]. split; [by rewrite length_applyL, replicate_length|].
      intros i k Hi Hk. pose proof (mixed_lt K X i k Hi Hk). destruct (decide (i < N /\ k < N)) as [[Hi' Hk']|Hn].
      + rewrite pent_in by done.
        apply (tile2_lookup_in N N (fun x k => (x * K + k, fun _ : T => ent N A x k)) _ nzero i k); [done|done| |by apply lookup_replicate_2].
        cbn [fst]. intros i' k' ? ? E. apply mixed_inj in E; lia.
      + rewrite pent_out by done. rewrite applyL_lookup, contrib_tile2_none, lookup_replicate_2 by
          (done || cbn [fst]; intros i' k' ? ? E; apply mixed_inj in E; lia). done.
    - intros x k s Hx Hk Hs. rewrite (vat_lookup _ _ (ent N A x k)) by (by apply ent_lookup_sq). cbn [pbind].
      rewrite vset_at_ok; [done|]. rewrite Hs. apply mixed_lt; lia.
  Qed.
  Lemma pad_B_ok N Y K (B : list T) : length B = N * N -> N <= Y -> N <= K ->
    exists Bp, pad_B N Y K B = Ret Bp /\ length Bp = K * Y /\
      forall k j, k < K -> j < Y -> Bp !! (k * Y + j) = Some (pent N B k j).
  Proof.
    intros HB HY HK. unfold pad_B.
    rewrite (forS_tile2 (K * Y) N N (fun y k => (k * Y + y, fun _ => ent N B k y))); [|by rewrite replicate_length|].
    - eexists. split; [reflexivity|]. split; [by rewrite length_applyL, replicate_length|].
      intros k j Hk Hj. pose proof (mixed_lt Y K k j Hk Hj). destruct (decide (k < N /\ j < N)) as [[Hk' Hj']|Hn].
      + rewrite pent_in by done.
        apply (tile2_lookup_in N N (fun y k => (k * Y + y, fun _ : T => ent N B k y)) _ nzero j k); [done|done| |by apply lookup_replicate_2].
        cbn [fst]. intros i' k' ? ? E. apply mixed_inj in E; lia.
      + rewrite pent_out by done. rewrite applyL_lookup, contrib_tile2_none, lookup_replicate_2 by
          (done || cbn [fst]; intros i' k' ? ? E; apply mixed_inj in E; lia). done.
    - intros y k s Hy Hk Hs. rewrite (vat_lookup _ _ (ent N B k y)) by (by apply ent_lookup_sq). cbn [pbind].
      rewrite vset_at_ok; [done|]. rewrite Hs. apply mixed_lt; lia.
  Qed.

  Context (b : blocks).
  Notation LX := (L1_X b). Notation LY := (L1_Y b). Notation LK := (L1_K b).
  Lemma tile_A_ok NX NK (Ap : list T) (f : nat -> nat -> T) : 0 < LX -> 0 < LK ->
    (forall i k, i < NX * LX -> k < NK * LK -> Ap !! (i * (NK * LK) + k) = Some (f i k)) ->
    exists At, tile_A b (NX * LX) (NK * LK) Ap = Ret At /\
      forall bx bk x k, bx < NX -> bk < NK -> x < LX -> k < LK ->
        At !! (LX * LK * (bk * NX + bx) + k * LX + x) = Some (f (bx * LX + x) (bk * LK + k)).
  Proof.
    intros HX HK Hf. unfold tile_A. rewrite !Nat.div_mul by lia.
    set (F := fun bx bk x k => (tpos LK LX NX bk bx k x, fun _ : T => f (bx * LX + x) (bk * LK + k))).
    rewrite (forS_tile4 (NK * LK * (NX * LX)) NX NK LX LK F); [|by rewrite replicate_length|].
    - eexists. split; [reflexivity|]. intros bx bk x k Hbx Hbk Hx Hk.
      change (LX * LK * (bk * NX + bx) + k * LX + x) with (F bx bk x k).1.
      rewrite applyL_lookup, contrib_tile4; [|done..|].
      + rewrite lookup_replicate_2; [done|]. by apply tpos_lt.
      + intros bx' bk' x' k' ? ? ? ? E. apply tpos_inj in E; [|done..]. lia.
    - intros bx bk x k s Hbx Hbk Hx Hk Hs.
      rewrite (vget_lookup _ _ (f (bx * LX + x) (bk * LK + k))) by (apply Hf; by apply mixed_lt). cbn [pbind].
      rewrite vset_ok; [done|]. rewrite Hs. by apply (tpos_lt LK LX NX NK).
  Qed.
  Lemma tile_B_ok NY NK (Bp : list T) (f : nat -> nat -> T) : 0 < LY -> 0 < LK ->
    (forall k j, k < NK * LK -> j < NY * LY -> Bp !! (k * (NY * LY) + j) = Some (f k j)) ->
    exists Bt, tile_B b (NY * LY) (NK * LK) Bp = Ret Bt /\
      forall by' bk y k, by' < NY -> bk < NK -> y < LY -> k < LK ->
        Bt !! (LY * LK * (bk * NY + by') + k * LY + y) = Some (f (bk * LK + k) (by' * LY + y)).
  Proof.
    intros HY HK Hf. unfold tile_B. rewrite !Nat.div_mul by lia.
    set (F := fun bx bk x k => (tpos LK LY NY bk bx k x, fun _ : T => f (bk * LK + k) (bx * LY + x))).
    rewrite (forS_tile4 (NK * LK * (NY * LY)) NY NK LY LK F); [|by rewrite replicate_length|].
    - eexists. split; [reflexivity|]. intros bx bk x k Hbx Hbk Hx Hk.
      change (LY * LK * (bk * NY + bx) + k * LY + x) with (F bx bk x k).1.
      rewrite applyL_lookup, contrib_tile4; [|done..|].
      + rewrite lookup_replicate_2; [done|]. by apply tpos_lt.
      + intros bx' bk' x' k' ? ? ? ? E. apply tpos_inj in E; [|done..]. lia.
    - intros bx bk x k s Hbx Hbk Hx Hk Hs.
      rewrite (vget_lookup _ _ (f (bk * LK + k) (bx * LY + x))) by (apply Hf; by apply mixed_lt). cbn [pbind].
      rewrite vset_ok; [done|]. rewrite Hs. by apply (tpos_lt LK LY NY NK).
  Qed.
  Lemma transpose_untiled_ok X K (Ap : list T) : length Ap = X * K -> exists U, transpose_untiled X K Ap = Ret U.
  Proof.
    intros HAp. unfold transpose_untiled.
    rewrite (forS_tile2 (K * X) K X (fun i j => (i * X + j, fun _ => ent K Ap j i))); [by eexists|by rewrite replicate_length|].
    intros i j s Hi Hj Hs. rewrite (vget_lookup _ _ (ent K Ap j i)).
    - cbn [pbind]. rewrite vset_ok; [done|]. rewrite Hs. by apply mixed_lt.
    - unfold ent. destruct (lookup_lt_is_Some_2 Ap (j * K + i)) as [v ->]; [|done]. rewrite HAp. by apply mixed_lt.
  Qed.
End Pad.

Section Register.
  Context {T : Type} `{NumOps T}.
  Definition add4_us (a : arr) (i : nat) (v : v4) : list (loc * (T -> T)) :=
    let '(v0, v1, v2, v3) := v in
    [((a, i) : loc, fun c => nadd c v0); ((a, i + 1) : loc, fun c => nadd c v1);
     ((a, i + 2) : loc, fun c => nadd c v2); ((a, i + 3) : loc, fun c => nadd c v3)].
  Lemma does_add4 a i (v : v4) : does (add4 a i v) (add4_us a i v).
  Proof.
    destruct v as [[[v0 v1] v2] v3]. intros m Hp. unfold add4_us in *.
    destruct (Hp _ (elem_of_list_here _ _)) as [t0 E0].
    destruct (Hp _ (elem_of_list_further _ _ _ (elem_of_list_here _ _))) as [t1 E1].
    destruct (Hp _ (elem_of_list_further _ _ _ (elem_of_list_further _ _ _ (elem_of_list_here _ _)))) as [t2 E2].
    destruct (Hp _ (elem_of_list_further _ _ _ (elem_of_list_further _ _ _ (elem_of_list_further _ _ _ (elem_of_list_here _ _))))) as [t3 E3].
    cbn [fst] in *. unfold add4, load4.
    rewrite run_bind. rewrite run_bind, (run_rd a i t0) by done. rewrite run_bind, (run_rd a (i + 1) t1) by done.
    rewrite run_bind, (run_rd a (i + 2) t2) by done. rewrite run_bind, (run_rd a (i + 3) t3) by done. cbn [run v4_add].
    assert (Hd : does (store4 a i (nadd t0 v0, nadd t1 v1, nadd t2 v2, nadd t3 v3))
      [((a, i) : loc, fun _ => nadd t0 v0); ((a, i + 1) : loc, fun _ => nadd t1 v1);
       ((a, i + 2) : loc, fun _ => nadd t2 v2); ((a, i + 3) : loc, fun _ => nadd t3 v3)]).
    { unfold store4. do 3 (apply (does_bind _ _ [_] _); [apply does_wr|]). apply does_wr. }
    assert (Hne : forall x y, x <> y -> ((a, x) : loc) <> (a, y)) by (intros x y Hxy [= E]; done).
    rewrite Hd.
    - f_equal. f_equal. unfold applyM. cbn [foldl fst snd].
      rewrite (applyM_set (a, i) _ m t0), (applyM_upd (a, i) _ m t0) by done.
      rewrite (applyM_set (a, i + 1) _ _ t1), (applyM_upd (a, i + 1) _ _ t1) by (by rewrite lookup_insert_ne by (apply Hne; lia)).
      rewrite (applyM_set (a, i + 2) _ _ t2), (applyM_upd (a, i + 2) _ _ t2) by (by rewrite !lookup_insert_ne by (apply Hne; lia)).
      rewrite (applyM_set (a, i + 3) _ _ t3), (applyM_upd (a, i + 3) _ _ t3) by (by rewrite !lookup_insert_ne by (apply Hne; lia)).
      done.
    - intros u Hu. repeat (apply elem_of_cons in Hu as [->|Hu]; [cbn [fst]; eauto|]). by apply elem_of_nil in Hu.
  Qed.

  Context (b : blocks).
  Notation LX := (L1_X b). Notation LY := (L1_Y b). Notation LK := (L1_K b).
  Context (At Bt : list T) (Ab Bb : nat) (fa fb : nat -> nat -> T).
  Context (HAt : forall x k, x < LX -> k < LK -> At !! (Ab + k * LX + x) = Some (fa x k)).
  Context (HBt : forall k y, y < LY -> k < LK -> Bt !! (Bb + k * LY + y) = Some (fb k y)).
  Context (H4Y : (4 | LY)) (H4B : (4 | Bb)).
  Definition D (x y n : nat) : T := dot (fun k => nmul (fa x k) (fb k y)) (seq 0 n).
  Definition D4 (x y n : nat) : v4 := (D x y n, D x (y + 1) n, D x (y + 2) n, D x (y + 3) n).
  Lemma vload_ok k y : (4 | y) -> y + 3 < LY -> k < LK ->
    vload_aligned Bt (Bb + k * LY + y) = Ret (fb k y, fb k (y + 1), fb k (y + 2), fb k (y + 3)).
  Proof.
    intros Hy Hy3 Hk. unfold vload_aligned.
    assert ((Bb + k * LY + y) mod 4 = 0) as ->.
    { apply Nat.mod_divide; [lia|]. apply Nat.divide_add_r; [apply Nat.divide_add_r; [exact H4B|]|exact Hy].
      apply Nat.divide_mul_r. exact H4Y. }
    cbn [negb Nat.eqb].
    assert (Hl : forall l, l < 4 -> Bt !! (Bb + k * LY + y + l) = Some (fb k (y + l))) by
      (intros l Hl; rewrite <- Nat.add_assoc; apply HBt; lia).
    pose proof (Hl 0 ltac:(lia)) as H0. rewrite !Nat.add_0_r in H0.
    rewrite (vget_lookup _ _ _ H0). cbn [pbind]. rewrite (vget_lookup _ _ _ (Hl 1 ltac:(lia))). cbn [pbind].
    rewrite (vget_lookup _ _ _ (Hl 2 ltac:(lia))). cbn [pbind]. rewrite (vget_lookup _ _ _ (Hl 3 ltac:(lia))). done.
  Qed.
  Lemma reg_inner_fold x y : (4 | y) -> y + 7 < LY -> x + 4 < LX ->
    forall n, n <= LK ->
    foldP (seq 0 n) (reg_inner b At Bt Ab Bb x y)
      (v4_zero, v4_zero, v4_zero, v4_zero, v4_zero, v4_zero, v4_zero, v4_zero, v4_zero, v4_zero) =
    Ret (D4 (x + 0) y n, D4 (x + 1) y n, D4 (x + 2) y n, D4 (x + 3) y n, D4 (x + 4) y n,
         D4 (x + 0) (y + 4) n, D4 (x + 1) (y + 4) n, D4 (x + 2) (y + 4) n, D4 (x + 3) (y + 4) n, D4 (x + 4) (y + 4) n).
  Proof.
    intros Hy Hy7 Hx4. assert (Hy4 : (4 | y + 4)) by (apply Nat.divide_add_r; [exact Hy|exists 1; reflexivity]).
    induction n as [|n IH]; intros Hn; [done|].
    rewrite seq_S, foldP_app by (left; eexists; apply IH; lia). rewrite IH by lia. cbn [pbind foldP Nat.add].
    set (acc := (D4 (x + 0) y n, D4 (x + 1) y n, D4 (x + 2) y n, D4 (x + 3) y n, D4 (x + 4) y n,
         D4 (x + 0) (y + 4) n, D4 (x + 1) (y + 4) n, D4 (x + 2) (y + 4) n, D4 (x + 3) (y + 4) n, D4 (x + 4) (y + 4) n)).
    assert (reg_inner b At Bt Ab Bb x y n acc = 
      Ret (D4 (x + 0) y (S n), D4 (x + 1) y (S n), D4 (x + 2) y (S n), D4 (x + 3) y (S n), D4 (x + 4) y (S n),
         D4 (x + 0) (y + 4) (S n), D4 (x + 1) (y + 4) (S n), D4 (x + 2) (y + 4) (S n), D4 (x + 3) (y + 4) (S n), D4 (x + 4) (y + 4) (S n))) as ->; [|done].
    unfold reg_inner, acc. rewrite vload_ok by (assumption || lia). cbn [pbind]. rewrite vload_ok by (assumption || lia). cbn [pbind].
    rewrite (vget_lookup At (Ab + n * LX + (x + 0)) (fa (x + 0) n)) by (apply HAt; lia). cbn [pbind].
    rewrite (vget_lookup At (Ab + n * LX + (x + 1)) (fa (x + 1) n)) by (apply HAt; lia). cbn [pbind].
    rewrite (vget_lookup At (Ab + n * LX + (x + 2)) (fa (x + 2) n)) by (apply HAt; lia). cbn [pbind].
    rewrite (vget_lookup At (Ab + n * LX + (x + 3)) (fa (x + 3) n)) by (apply HAt; lia). cbn [pbind].
    rewrite (vget_lookup At (Ab + n * LX + (x + 4)) (fa (x + 4) n)) by (apply HAt; lia). cbn [pbind].
    unfold D4, D. rewrite !seq_S, !dot_snoc. done.
  Qed.
  Definition reg_us (Cb x y : nat) : list (loc * (T -> T)) :=
    [0; 4] ≫= fun h => seq 0 5 ≫= fun r => seq 0 4 ≫= fun l =>
      [((idCp, Cb + (x + r) * LY + (y + h) + l) : loc, fun c => nadd c (D (x + r) (y + h + l) LK))].
  Lemma reg_block_does Cb x y : (4 | y) -> y + 7 < LY -> x + 4 < LX ->
    does (reg_block b At Bt Ab Bb Cb x y) (reg_us Cb x y).
  Proof.
    intros Hy Hy7 Hx4. unfold reg_block. rewrite forS_step by lia. rewrite rng_1, Nat.sub_0_r.
    rewrite reg_inner_fold by (assumption || lia). cbn [pbind].
    unfold reg_us. cbn [mbind list_bind seq app]. rewrite !Nat.add_0_r.
    do 9 (apply (does_bind _ _ [_; _; _; _] _); [apply does_add4|]). apply does_add4.
  Qed.
End Register.

Lemma div_mod_block L q r : r < L -> (q * L + r) / L = q /\ (q * L + r) mod L = r.
Proof.
  intros Hr. split.
  - rewrite Nat.div_add_l by lia. rewrite Nat.div_small by done. lia.
  - rewrite Nat.add_comm, Nat.mod_add by lia. by apply Nat.mod_small.
Qed.
Lemma in_block L q i : 0 < L -> q * L <= i < q * L + L <-> i / L = q.
Proof.
  intros HL. pose proof (Nat.div_mod i L ltac:(lia)). pose proof (Nat.mod_upper_bound i L ltac:(lia)).
  split; [|intros <-; nia]. intros Hi. destruct (decide (i / L < q)); [nia|]. destruct (decide (q < i / L)); nia.
Qed.

Section L1.
  Context {T : Type} `{NumOps T}.
  Context (b : blocks).
  Notation LX := (L1_X b). Notation LY := (L1_Y b). Notation LK := (L1_K b).
  Context (NX NY NK : nat) (HLX : 0 < LX) (HLY : 0 < LY) (HLK : 0 < LK) (H5 : (5 | LX)) (H8 : (8 | LY)).
  Notation X := (NX * LX). Notation Y := (NY * LY). Notation K := (NK * LK).
  Context (At Bt : list T) (fA fB : nat -> nat -> T).
  Context (HAt : forall bx bk x k, bx < NX -> bk < NK -> x < LX -> k < LK ->
    At !! (LX * LK * (bk * NX + bx) + k * LX + x) = Some (fA (bx * LX + x) (bk * LK + k))).
  Context (HBt : forall by' bk y k, by' < NY -> bk < NK -> y < LY -> k < LK ->
    Bt !! (LY * LK * (bk * NY + by') + k * LY + y) = Some (fB (bk * LK + k) (by' * LY + y))).
  Definition cell (i j : nat) : loc :=
    (idCp, tpos LX LY NY (i / LX) (j / LY) (i mod LX) (j mod LY)).
  Definition chunk (i j k0 : nat) : T := dot (fun k => nmul (fA i k) (fB k j)) (seq k0 LK).
  Lemma cell_inj i j i' j' : j < Y -> j' < Y -> cell i j = cell i' j' -> i = i' /\ j = j'.
  Proof.
    clear H5 H8 HAt HBt. intros Hj Hj' [= E].
    pose proof (Nat.div_mod i LX ltac:(lia)). pose proof (Nat.div_mod i' LX ltac:(lia)).
    pose proof (Nat.div_mod j LY ltac:(lia)). pose proof (Nat.div_mod j' LY ltac:(lia)).
    apply tpos_inj in E; [| | |apply Nat.mod_upper_bound; lia..]; [nia| |];
      apply Nat.div_lt_upper_bound; lia.
  Qed.
  Lemma cell_lt i j : i < X -> j < Y -> exists p, cell i j = (idCp, p) /\ p < X * Y.
  Proof.
    clear H5 H8 HAt HBt. intros Hi Hj. eexists. split; [reflexivity|].
    apply tpos_lt; try (apply Nat.mod_upper_bound; lia); apply Nat.div_lt_upper_bound; lia.
  Qed.
  Lemma cell_surj p : p < X * Y -> exists i j, i < X /\ j < Y /\ (idCp, p) = cell i j.
  Proof.
    clear H5 H8 HAt HBt. intros Hp.
    pose proof (Nat.div_mod p LY ltac:(lia)) as E1. pose proof (Nat.mod_upper_bound p LY ltac:(lia)) as M1.
    set (p1 := p / LY) in *. set (d := p mod LY) in *.
    pose proof (Nat.div_mod p1 LX ltac:(lia)) as E2. pose proof (Nat.mod_upper_bound p1 LX ltac:(lia)) as M2.
    set (p2 := p1 / LX) in *. set (c := p1 mod LX) in *.
    assert (HNY : NY <> 0) by (intros ->; lia).
    pose proof (Nat.div_mod p2 NY ltac:(lia)) as E3. pose proof (Nat.mod_upper_bound p2 NY ltac:(lia)) as M3.
    set (px := p2 / NY) in *. set (py := p2 mod NY) in *.
    assert (px < NX).
    { destruct (decide (px < NX)) as [|Hn]; [done|exfalso].
      assert (NX * NY <= p2) by nia. assert (NX * NY * LX <= p1) by nia. assert (NX * NY * LX * LY <= p) by nia. nia. }
    exists (px * LX + c), (py * LY + d). split_and!; [by apply mixed_lt|by apply mixed_lt|].
    unfold cell. destruct (div_mod_block LX px c M2) as [-> ->]. destruct (div_mod_block LY py d M1) as [-> ->].
    unfold tpos. f_equal. nia.
  Qed.

  Definition l1_us (bx by' bk : nat) : list (loc * (T -> T)) :=
    rng 0 LX 5 ≫= fun x => rng 0 LY 8 ≫= fun y =>
      reg_us b (fun x k => fA (bx * LX + x) (bk * LK + k)) (fun k y => fB (bk * LK + k) (by' * LY + y))
        (LX * LY * (bx * NY + by')) x y.
  Lemma rng5 x : x ∈ rng 0 LX 5 -> x + 4 < LX.
  Proof. clear HAt HBt. intros Hx. apply elem_of_rng0 in Hx as (q&->&Hq); [|lia]. apply block_lt; [exact H5|lia|lia|exact Hq]. Qed.
  Lemma rng8 y : y ∈ rng 0 LY 8 -> y + 7 < LY /\ (4 | y).
  Proof. clear HAt HBt.
    intros Hx. apply elem_of_rng0 in Hx as (q&->&Hq); [|lia]. split.
    - apply block_lt; [exact H8|lia|lia|exact Hq].
    - exists (q * 2). lia.
  Qed.
  Lemma div4_LY : (4 | LY).
  Proof. clear HAt HBt. destruct H8 as [q ->]. exists (q * 2). lia. Qed.
  Lemma l1_does bx by' bk : bx < NX -> by' < NY -> bk < NK ->
    does (l1_kernel b X Y At Bt (bx * LX) (by' * LY) (bk * LK)) (l1_us bx by' bk).
  Proof.
    intros Hx Hy Hk. unfold l1_kernel. rewrite !Nat.div_mul by lia.
    unfold l1_us. apply does_forP; [lia|]. intros x Hx5. apply does_forP; [lia|]. intros y Hy8.
    apply rng5 in Hx5. apply rng8 in Hy8 as [Hy8 Hy4]. apply reg_block_does.
    - intros x' k' ? ?. by apply HAt.
    - intros k' y' ? ?. by apply HBt.
    - exact div4_LY.
    - apply Nat.divide_mul_l, Nat.divide_mul_l. exact div4_LY.
    - exact Hy4.
    - exact Hy8.
    - exact Hx5.
  Qed.
  Lemma reg_us_elem fa fb Cb x y u : u ∈ reg_us b fa fb Cb x y ->
    exists r c f, u = (((idCp, Cb + r * LY + c) : loc), f) /\ x <= r < x + 5 /\ y <= c < y + 8.
  Proof. clear HAt HBt.
    unfold reg_us. intros (h&(r&(l&->%elem_of_list_singleton&Hl%elem_of_seq)%elem_of_list_bind&Hr%elem_of_seq)%elem_of_list_bind&Hh)%elem_of_list_bind.
    assert (h <= 4) by (apply elem_of_cons in Hh as [->|Hh]; [lia|]; apply elem_of_list_singleton in Hh as ->; lia).
    exists (x + r), (y + h + l). eexists. split; [|lia]. rewrite <- !Nat.add_assoc. reflexivity.
  Qed.
  Lemma contrib_reg fa fb Cb x y c d : y + 7 < LY -> d < LY ->
    contrib (((idCp, Cb + c * LY + d)) : loc) (reg_us b fa fb Cb x y) =
    if decide (x <= c < x + 5) then if decide (y <= d < y + 8) then [fun v => nadd v (D fa fb c d LK)] else [] else [].
  Proof. clear HAt HBt.
    intros Hy Hd. case_decide as Hc; [case_decide as Hd'|].
    - unfold reg_us. pose proof (Nat.div_mod (d - y) 4 ltac:(lia)). pose proof (Nat.mod_upper_bound (d - y) 4 ltac:(lia)).
      rewrite contrib_bind, (bind_select _ _ ((d - y) / 4 * 4)).
      + rewrite contrib_bind, (bind_select _ _ (c - x)); [|apply NoDup_seq|apply elem_of_seq; lia|].
        * rewrite contrib_bind, (bind_select _ _ ((d - y) mod 4)); [|apply NoDup_seq|apply elem_of_seq; lia|].
          -- replace (x + (c - x)) with c by lia. replace (y + (d - y) / 4 * 4 + (d - y) mod 4) with d by lia.
             replace (Cb + c * LY + (y + (d - y) / 4 * 4) + (d - y) mod 4) with (Cb + c * LY + d) by lia.
             apply contrib_single_eq.
          -- intros l Hl%elem_of_seq Hne. apply contrib_single_ne. intros [= E].
             assert ((x + (c - x)) * LY + (y + (d - y) / 4 * 4 + l) = c * LY + d) as E' by lia. apply mixed_inj in E'; lia.
        * intros r Hr%elem_of_seq Hne. rewrite contrib_bind. apply bind_nil. intros l Hl%elem_of_seq.
          apply contrib_single_ne. intros [= E].
          assert ((x + r) * LY + (y + (d - y) / 4 * 4 + l) = c * LY + d) as E' by lia. apply mixed_inj in E'; lia.
      + repeat constructor; set_solver.
      + assert ((d - y) / 4 < 2) by (apply Nat.div_lt_upper_bound; lia).
        destruct ((d - y) / 4) as [|[|?]]; [left|right; left|lia].
      + intros h Hh Hne. assert (h = 0 \/ h = 4) as Hh' by set_solver.
        rewrite contrib_bind. apply bind_nil. intros r Hr%elem_of_seq. rewrite contrib_bind. apply bind_nil. intros l Hl%elem_of_seq.
        apply contrib_single_ne. intros [= E].
        assert ((x + r) * LY + (y + h + l) = c * LY + d) as E' by lia. apply mixed_inj in E'; [|lia|lia].
        apply Hne. assert (d - y = h / 4 * 4 + l) as ->; [|rewrite Nat.div_add_l by lia; rewrite (Nat.div_small l) by lia];
          destruct Hh' as [-> | ->]; cbn; lia.
    - apply contrib_none. intros u (r&c'&f&->&Hr&Hc')%reg_us_elem. cbn [fst]. intros [= E].
      assert (r * LY + c' = c * LY + d) as E' by lia. apply mixed_inj in E'; lia.
    - apply contrib_none. intros u (r&c'&f&->&Hr&Hc')%reg_us_elem. cbn [fst]. intros [= E].
      assert (r * LY + c' = c * LY + d) as E' by lia. apply mixed_inj in E'; lia.
  Qed.
  Lemma l1_us_elem bx by' bk u : bx < NX -> by' < NY -> u ∈ l1_us bx by' bk ->
    exists i j, u.1 = cell i j /\ bx * LX <= i < bx * LX + LX /\ by' * LY <= j < by' * LY + LY.
  Proof. clear HAt HBt.
    intros Hbx Hby. unfold l1_us. intros (x&(y&(r&c&f&->&Hr&Hc)%reg_us_elem&Hy%rng8)%elem_of_list_bind&Hx%rng5)%elem_of_list_bind.
    exists (bx * LX + r), (by' * LY + c). split; [|lia].
    unfold cell. destruct (div_mod_block LX bx r ltac:(lia)) as [-> ->]. destruct (div_mod_block LY by' c ltac:(lia)) as [-> ->].
    cbn [fst]. unfold tpos. do 2 f_equal. lia.
  Qed.
  Lemma contrib_l1 bx by' bk i j : bx < NX -> by' < NY -> i < X -> j < Y ->
    contrib (cell i j) (l1_us bx by' bk) =
    if decide (bx * LX <= i < bx * LX + LX) then
      if decide (by' * LY <= j < by' * LY + LY) then [fun v => nadd v (chunk i j (bk * LK))] else [] else [].
  Proof. clear HAt HBt.
    intros Hbx Hby Hi Hj.
    assert (Hout : ~ (bx * LX <= i < bx * LX + LX /\ by' * LY <= j < by' * LY + LY) -> contrib (cell i j) (l1_us bx by' bk) = []).
    { intros Hn. apply contrib_none. intros u Hu E. apply l1_us_elem in Hu as (i'&j'&E'&Hi'&Hj'); [|done..].
      rewrite E' in E. pose proof (mixed_lt LY NY by' (LY - 1) Hby ltac:(lia)). apply cell_inj in E as [-> ->]; [|lia|done]. by apply Hn. }
    case_decide as Hi'; [case_decide as Hj'|]; [|apply Hout; tauto..]. clear Hout.
    pose proof (Nat.mod_upper_bound i LX ltac:(lia)) as Mi. pose proof (Nat.mod_upper_bound j LY ltac:(lia)) as Mj.
    pose proof (Nat.div_mod i LX ltac:(lia)) as Ei. pose proof (Nat.div_mod j LY ltac:(lia)) as Ej.
    apply in_block in Hi'; [|done]. apply in_block in Hj'; [|done].
    unfold cell. rewrite Hi', Hj' in *. set (c := i mod LX) in *. set (d := j mod LY) in *.
    unfold tpos. replace (LY * LX) with (LX * LY) by lia. unfold l1_us. rewrite contrib_bind.
    destruct H5 as [n5 H5']. destruct H8 as [n8 H8'].
    assert (rng 0 LX 5 = rng 0 (0 + n5 * 5) 5) as -> by (f_equal; lia).
    transitivity (if decide (0 <= c < 0 + n5 * 5) then [fun v => nadd v (chunk i j (bk * LK))] else []); [|rewrite decide_True by lia; done].
    apply sel_range; [lia|]. intros q Hq. rewrite contrib_bind. rewrite Nat.add_0_l.
    assert (chunk i j (bk * LK) = D (fun x k => fA (bx * LX + x) (bk * LK + k)) (fun k y => fB (bk * LK + k) (by' * LY + y)) c d LK) as ->.
    { unfold chunk, D. replace (seq (bk * LK) LK) with (Nat.add (bk * LK) <$> seq 0 LK) by (rewrite fmap_add_seq; f_equal; lia).
      rewrite dot_fmap. apply dot_ext. intros k _. do 2 f_equal; lia. }
    transitivity (if decide (0 <= d < 0 + n8 * 8) then if decide (q * 5 <= c < q * 5 + 5) then
      [fun v => nadd v (D (fun x k => fA (bx * LX + x) (bk * LK + k)) (fun k y => fB (bk * LK + k) (by' * LY + y)) c d LK)] else [] else []);
      [|rewrite decide_True by lia; done].
    assert (rng 0 LY 8 = rng 0 (0 + n8 * 8) 8) as -> by (f_equal; lia). apply sel_range; [lia|]. intros q' Hq'. rewrite Nat.add_0_l.
    rewrite contrib_reg by lia. repeat case_decide; done.
  Qed.
End L1.
