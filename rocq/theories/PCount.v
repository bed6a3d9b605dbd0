(** Counting the arithmetic of an entry. *)
From Verif Require Import Base Num Spec SpecTiled SpecContract SpecRound Conc ConcFacts Tools PRound PContract2 MApp SpecApp SpecCount.
Local Open Scope nat_scope.

Lemma foldl_summands (f : nat -> formula) ks a :
  summands (foldl (fun acc k => nadd acc (f k)) a ks) = summands a ++ (ks ≫= (fun k => summands (f k))).
Proof.
  revert a. induction ks as [|k ks IH]; intros a; cbn [foldl]; [by rewrite app_nil_r|].
  rewrite IH. cbn [nadd formula_ops summands]. by rewrite <- app_assoc.
Qed.
Lemma dot_summands (f : nat -> formula) ks : summands (dot f ks) = ks ≫= (fun k => summands (f k)).
Proof. apply foldl_summands. Qed.
Lemma foldl_additions (f : nat -> formula) e ks a : (forall k, k ∈ ks -> additions (f k) = e) ->
  additions (foldl (fun acc k => nadd acc (f k)) a ks) = additions a + length ks * S e.
Proof.
  revert a. induction ks as [|k ks IH]; intros a He; cbn [foldl length]; [lia|].
  rewrite IH by set_solver. cbn [nadd formula_ops additions]. rewrite (He k) by set_solver. lia.
Qed.
Lemma dot_additions (f : nat -> formula) e ks : (forall k, k ∈ ks -> additions (f k) = e) -> additions (dot f ks) = length ks * S e.
Proof. intros He. unfold dot. by rewrite (foldl_additions f e) by done. Qed.
Lemma foldl_multiplications (f : nat -> formula) e ks a : (forall k, k ∈ ks -> multiplications (f k) = e) ->
  multiplications (foldl (fun acc k => nadd acc (f k)) a ks) = multiplications a + length ks * e.
Proof.
  revert a. induction ks as [|k ks IH]; intros a He; cbn [foldl length]; [lia|].
  rewrite IH by set_solver. cbn [nadd formula_ops multiplications]. rewrite (He k) by set_solver. lia.
Qed.
Lemma dot_multiplications (f : nat -> formula) e ks : (forall k, k ∈ ks -> multiplications (f k) = e) -> multiplications (dot f ks) = length ks * e.
Proof. intros He. unfold dot. by rewrite (foldl_multiplications f e) by done. Qed.

Lemma ent_unknowns b N i j : i < N -> j < N -> ent N (unknowns b N) i j = Entry b (i * N + j).
Proof.
  intros Hi Hj. unfold ent, unknowns. rewrite list_lookup_fmap, lookup_seq_lt by nia. done.
Qed.
Lemma dot_ext {T} `{NumOps T} (f g : nat -> T) ks : (forall k, k ∈ ks -> f k = g k) -> dot f ks = dot g ks.
Proof.
  unfold dot. generalize nzero. induction ks as [|k ks IH]; intros a Hfg; cbn [foldl]; [done|].
  rewrite (Hfg k) by set_solver. apply IH. set_solver.
Qed.

Lemma product_additions tr N i j k : additions (product tr N i j k) = 0.
Proof. unfold product. by destruct (decide _). Qed.
Lemma product_multiplications tr N i j k : multiplications (product tr N i j k) = 1.
Proof. unfold product. by destruct (decide _). Qed.
Lemma product_summands tr N i j k : summands (product tr N i j k) = [product tr N i j k].
Proof. unfold product. by destruct (decide _). Qed.

(** An entry summed up in [q], over [W] products and with [e] chunk sums *)
Definition counted (tr : bool) (N i j W e : nat) (t : formula) : Prop :=
  summands t = product tr N i j <$> seq 0 W /\ multiplications t = W /\ additions t = W + e.

Lemma bind_single {A B} (f : A -> B) l : (l ≫= (fun k => [f k])) = f <$> l.
Proof. induction l as [|x l IH]; [done|]. change (f x :: (l ≫= (fun k => [f k])) = f x :: (f <$> l)). by rewrite IH. Qed.
Lemma dot_counted tr N i j f W : (forall k, k < W -> f k = product tr N i j k) -> counted tr N i j W 0 (dot f (seq 0 W)).
Proof.
  intros Hf. rewrite (dot_ext f (product tr N i j)) by (intros k [_ ?]%elem_of_seq; apply Hf; lia). split_and!.
  - rewrite dot_summands. rewrite (list_bind_ext _ (fun k => [product tr N i j k]) (seq 0 W) (seq 0 W)); [apply bind_single| |done].
    intros k. apply product_summands.
  - rewrite (dot_multiplications _ 1) by (intros; apply product_multiplications). rewrite seq_length. lia.
  - rewrite (dot_additions _ 0) by (intros; apply product_additions). rewrite seq_length. lia.
Qed.
Lemma chunks_counted tr N i j f b W : 0 < b -> (b | W) -> (forall k, k < W -> f k = product tr N i j k) ->
  counted tr N i j W (W / b) (dot_chunks b f W).
Proof.
  intros Hb [Q ->] Hf. unfold dot_chunks. rewrite Nat.div_mul by lia.
  rewrite (dot_ext _ (fun q => dot (product tr N i j) (seq (q * b) b))).
  2:{ intros q [_ Hq]%elem_of_seq. apply dot_ext. intros k [Hk Hk']%elem_of_seq. apply Hf. nia. }
  split_and!.
  - rewrite dot_summands. rewrite (list_bind_ext _ (fun q => product tr N i j <$> seq (q * b) b) (seq 0 Q) (seq 0 Q)); [|intros q|done].
    + rewrite <- chunk_seq. generalize (seq 0 Q). intros l. induction l as [|q l IH]; [done|].
      change ((product tr N i j <$> seq (q * b) b) ++ (l ≫= fun q => product tr N i j <$> seq (q * b) b) =
        product tr N i j <$> (seq (q * b) b ++ (l ≫= fun q => seq (q * b) b))). by rewrite fmap_app, IH.
    + rewrite dot_summands, (list_bind_ext _ (fun k => [product tr N i j k]) (seq (q * b) b) (seq (q * b) b)); [apply bind_single| |done].
      intros k. apply product_summands.
  - rewrite (dot_multiplications _ b); [by rewrite seq_length|]. intros q _.
    rewrite (dot_multiplications _ 1) by (intros; apply product_multiplications). rewrite seq_length. lia.
  - rewrite (dot_additions _ b); [rewrite seq_length; lia|]. intros q _.
    rewrite (dot_additions _ 0) by (intros; apply product_additions). rewrite seq_length. lia.
Qed.

Lemma round_up_mult N L : 0 < L -> (L | SpecTiled.round_up N L).
Proof. intros _. exists (cdiv N L). done. Qed.

Lemma entry_counted o v q i j : order_ok (o_n o) (multiplies o v) q -> order_of o v q -> i < o_n o -> j < o_n o ->
  exists e, chunk_additions o v e /\
    counted (multiplies o v) (o_n o) i j (width v (o_n o)) e
      (entry_in (multiplies o v) q (o_n o) (unknowns false (o_n o)) (unknowns true (o_n o)) i j).
Proof.
  intros Hok Hof Hi Hj. set (N := o_n o) in *.
  assert (HS : forall tr, counted tr N i j N 0 (entry_in tr Straight N (unknowns false N) (unknowns true N) i j)).
  { intros tr. cbn [entry_in]. unfold pentry, prod_entry, prod_t_entry. destruct tr; apply dot_counted; intros k Hk;
      unfold product; rewrite decide_True by done; by rewrite !ent_unknowns by done. }
  assert (HC : forall b, 0 < b -> (b | N) -> counted true N i j N (N / b) (entry_in true (Chunks b) N (unknowns false N) (unknowns true N) i j)).
  { intros b Hb Hd. cbn [entry_in]. unfold prod_t_chunks. apply chunks_counted; [done|done|]. intros k Hk.
      unfold product; rewrite decide_True by done; by rewrite !ent_unknowns by done. }
  assert (HP : forall b, 0 < L1_K b -> 0 < L3_K b -> (L1_K b | L3_K b) ->
    counted false N i j (SpecTiled.round_up N (L3_K b)) (SpecTiled.round_up N (L3_K b) / L1_K b) (entry_in false (Padded b) N (unknowns false N) (unknowns true N) i j)).
  { intros b Hb Hb' Hd. cbn [entry_in]. unfold tiled_entry. apply chunks_counted; [done| |].
    - etransitivity; [exact Hd|]. by apply round_up_mult.
    - intros k Hk. unfold product, pent. destruct (decide (k < N)) as [Hk'|Hk'].
      + rewrite !decide_True by done. by rewrite !ent_unknowns by done.
      + rewrite !decide_False by lia. done. }
  destruct v; cbn [order_of] in Hof; cbn [chunk_additions width].
  1,2: destruct Hof as [->|(Ht&Hb&->)];
    [exists 0; split; [by left|apply HS]|
     cbn [multiplies order_ok] in *; destruct Hok as (Ht'&_&Hd); rewrite Ht; exists (N / o_block_input o); split; [by right|by apply HC]].
  - subst q. cbn [multiplies order_ok] in *. destruct Hok as (Ht'&Hb&Hd). rewrite Ht'. exists (N / o_block_input o). split; [done|by apply HC].
  - subst q. exists 0. split; [done|apply HS].
  - subst q. cbn [multiplies order_ok] in *. destruct Hok as (Ht'&Hb&Hd). rewrite Ht'. exists (N / o_block_input o). split; [done|by apply HC].
  - subst q. cbn [multiplies order_ok] in *. destruct Hok as (Ht'&Hb&Hb'&Hd). rewrite Ht'. eexists. split; [reflexivity|exact (HP shipped Hb Hb' Hd)].
  - done.
  - subst q. cbn [multiplies order_ok] in *. destruct Hok as (Ht'&Hb&Hb'&Hd). eexists. split; [reflexivity|exact (HP kt_shipped Hb Hb' Hd)].
  - subst q. cbn [multiplies order_ok] in *. destruct Hok as (Ht'&Hb&Hb'&Hd). eexists. split; [reflexivity|exact (HP shipped Hb Hb' Hd)].
Qed.

Lemma unknowns_length b N : length (unknowns b N) = N * N.
Proof. unfold unknowns. by rewrite fmap_length, seq_length. Qed.

Lemma count_entries o G v : flag_ok o v -> suitable o G v ->
  let N := o_n o in
  always_tol (tolerated v) (computation o G v (unknowns false N) (unknowns true N)) (fun C =>
    length C = N * N /\ forall i j, i < N -> j < N -> exists t e, C !! (i * N + j) = Some t /\ chunk_additions o v e /\
      summands t = product (multiplies o v) N i j <$> seq 0 (width v N) /\
      multiplications t = width v N /\ additions t = width v N + e).
Proof.
  intros Hf Hs N. destruct (same_order_of o G v Hf Hs) as (q&Hq&Hall).
  pose proof (Hall formula formula_ops (unknowns false N) (unknowns true N) (unknowns_length _ _) (unknowns_length _ _)) as Hc.
  unfold always_tol in *. eapply must_mono; [|exact Hc]. cbv beta. intros C m [HL HC]. split; [exact HL|].
  intros i j Hi Hj. destruct (Hq i j Hi Hj) as [Hok Hof].
  destruct (entry_counted o v (q i j) i j Hok Hof Hi Hj) as (e&He&H1&H2&H3).
  eexists _, e. split; [by apply HC|]. done.
Qed.

(** ** Totals *)
Lemma total_ge (f : formula -> nat) c (C : list formula) : (forall t, t ∈ C -> c <= f t) -> length C * c <= total f C.
Proof.
  unfold total. induction C as [|t C IH]; intros Hf; cbn [length sum_list_with]; [lia|].
  pose proof (Hf t ltac:(set_solver)). assert (length C * c <= sum_list_with f C) by (apply IH; set_solver). lia.
Qed.
Lemma total_eq (f : formula -> nat) c (C : list formula) : (forall t, t ∈ C -> f t = c) -> total f C = length C * c.
Proof.
  unfold total. induction C as [|t C IH]; intros Hf; cbn [length sum_list_with]; [lia|].
  rewrite (Hf t) by set_solver. rewrite IH by set_solver. lia.
Qed.
Lemma total_le (f : formula -> nat) c (C : list formula) : (forall t, t ∈ C -> f t <= c) -> total f C <= length C * c.
Proof.
  unfold total. induction C as [|t C IH]; intros Hf; cbn [length sum_list_with]; [lia|].
  pose proof (Hf t ltac:(set_solver)). assert (sum_list_with f C <= length C * c) by (apply IH; set_solver). lia.
Qed.
Lemma in_matrix {T} N (C : list T) t : length C = N * N -> t ∈ C -> exists i j, i < N /\ j < N /\ C !! (i * N + j) = Some t.
Proof.
  intros HL [p Hp]%elem_of_list_lookup. pose proof (lookup_lt_Some _ _ _ Hp) as Hlt. rewrite HL in Hlt.
  assert (N <> 0) by lia. exists (p / N), (p mod N). split; [by apply Nat.div_lt_upper_bound|]. split; [by apply Nat.mod_upper_bound|].
  rewrite <- Hp. f_equal. pose proof (Nat.div_mod p N). lia.
Qed.
Lemma width_ge v N : N <= width v N.
Proof.
  assert (H : forall L, 0 < L -> N <= SpecTiled.round_up N L).
  { intros L HL. unfold SpecTiled.round_up, cdiv. pose proof (Nat.div_mod (N + (L - 1)) L). pose proof (Nat.mod_upper_bound (N + (L - 1)) L). nia. }
  destruct v; cbn [width]; try lia; apply H; lia.
Qed.
Lemma always_entry_add o G v e : suitable o G v -> chunk_additions o v e -> always_chunked v -> 0 < o_n o -> 0 < e.
Proof.
  intros Hs He Hv HN. set (N := o_n o) in *.
  assert (HU : forall L b, 0 < L -> (b | L) -> 0 < b -> 0 < SpecTiled.round_up N L / b).
  { intros L b HL Hd Hb. apply Nat.div_str_pos. split; [done|]. apply Nat.divide_pos_le.
    - unfold SpecTiled.round_up, cdiv. pose proof (Nat.div_str_pos (N + (L - 1)) L ltac:(lia)). nia.
    - etransitivity; [exact Hd|]. by apply round_up_mult. }
  assert (HD : forall b W, 0 < b -> b <= W -> 0 < W / b).
  { intros b W Hb HW. pose proof (Nat.div_str_pos W b). lia. }
  destruct v; cbn [chunk_additions always_chunked suitable] in *; try done; rewrite He.
  - destruct Hs as (_&Hb&_&Hd). apply HD; [done|]. apply Nat.divide_pos_le; [done|exact Hd].
  - destruct Hs as (Hb&_&Hd). apply HD; [done|]. apply Nat.divide_pos_le; [done|exact Hd].
  - apply HU; [lia|exists 4; reflexivity|lia].
  - apply HU; [lia|exists 32; reflexivity|lia].
  - apply HU; [lia|exists 4; reflexivity|lia].
Qed.
Lemma never_entry_add o v e : chunk_additions o v e -> never_chunked o v -> e = 0 /\ width v (o_n o) = o_n o.
Proof.
  intros He Hv. destruct v; cbn [chunk_additions never_chunked width] in *; try done.
  - split; [|done]. destruct He as [He|(H1&H2&_)]; [done|]. destruct Hv as [Hv|Hv]; [congruence|lia].
  - split; [|done]. destruct He as [He|(H1&H2&_)]; [done|]. destruct Hv as [Hv|Hv]; [congruence|lia].
Qed.

Lemma count_totals o G v : flag_ok o v -> suitable o G v ->
  let N := o_n o in
  always_tol (tolerated v) (computation o G v (unknowns false N) (unknowns true N)) (fun C =>
    total multiplications C = N * N * width v N /\
    N * N * width v N <= total additions C /\
    (never_chunked o v -> total multiplications C + total additions C = 2 * (N * (N * N))) /\
    (always_chunked v -> 0 < N -> 2 * (N * (N * N)) < total multiplications C + total additions C)).
Proof.
  intros Hf Hs N. pose proof (count_entries o G v Hf Hs) as Hc. cbv zeta in Hc. fold N in Hc.
  unfold always_tol in *. eapply must_mono; [|exact Hc]. cbv beta. intros C m [HL HC].
  assert (Hm : total multiplications C = N * N * width v N).
  { rewrite <- HL. apply total_eq. intros t Ht. destruct (in_matrix N C t HL Ht) as (i&j&Hi&Hj&E).
    destruct (HC i j Hi Hj) as (t'&e&E'&_&_&H2&_). rewrite E in E'. by injection E' as <-. }
  split; [exact Hm|]. split; [|split].
  - rewrite <- HL. apply total_ge. intros t Ht. destruct (in_matrix N C t HL Ht) as (i&j&Hi&Hj&E).
    destruct (HC i j Hi Hj) as (t'&e&E'&_&_&_&H3). rewrite E in E'. injection E' as <-. lia.
  - intros Hv. rewrite Hm. assert (Ha : total additions C = N * N * N).
    { rewrite <- HL at 1. apply total_eq. intros t Ht. destruct (in_matrix N C t HL Ht) as (i&j&Hi&Hj&E).
      destruct (HC i j Hi Hj) as (t'&e&E'&He&_&_&H3). rewrite E in E'. injection E' as <-.
      destruct (never_entry_add o v e He Hv) as [-> HW]. fold N in HW. lia. }
    destruct (decide (N = 0)) as [HN|HN]; [rewrite HN in *; lia|].
    assert (width v N = N) as ->; [|lia].
    destruct (HC 0 0 ltac:(lia) ltac:(lia)) as (t&e&_&He&_). exact (proj2 (never_entry_add o v e He Hv)).
  - intros Hv HN. rewrite Hm. pose proof (width_ge v N) as HW.
    assert (Ha : length C * (N + 1) <= total additions C).
    { apply total_ge. intros t Ht. destruct (in_matrix N C t HL Ht) as (i&j&Hi&Hj&E).
      destruct (HC i j Hi Hj) as (t'&e&E'&He&_&_&H3). rewrite E in E'. injection E' as <-.
      pose proof (always_entry_add o G v e Hs He Hv HN). lia. }
    rewrite HL in Ha. nia.
Qed.
