(** Proofs about the AVX and assembler experiment kernels of MExp2.v. *)
From Verif Require Import SpecExp2 Tools Tools2 Tools3 MExp2 PExp PExpBlocks.

(** ** Vectors and registers *)
Section Vec.
  Context {T : Type} `{NumOps T}.
  Definition vec4 (g : nat -> T) : m256 := (g 0, g 1, g 2, g 3).
  Lemma out_vec4 g l : l < 4 -> out_pd (vec4 g) l = g l.
  Proof. intros Hl. destruct l as [|[|[|[|l]]]]; try done. lia. Qed.
  Lemma vec4_ext g h : (forall l, l < 4 -> g l = h l) -> vec4 g = vec4 h.
  Proof. intros He. unfold vec4. rewrite !He by lia. done. Qed.
  Lemma aligned_ok off i : (off + i) mod 4 = 0 -> negb ((off + i) mod 4 =? 0) = false.
  Proof. intros ->. done. Qed.
  Lemma load_ok off (v : list T) i g : (off + i) mod 4 = 0 ->
    (forall l, l < 4 -> v !! (i + l) = Some (g l)) -> load_pd off v i = Ret (vec4 g).
  Proof.
    intros Ha Hv. unfold load_pd. rewrite aligned_ok by done.
    rewrite (vget_lookup v i (g 0)) by (rewrite <- (Hv 0) by lia; f_equal; lia).
    rewrite (vget_lookup _ _ _ (Hv 1 ltac:(lia))), (vget_lookup _ _ _ (Hv 2 ltac:(lia))), (vget_lookup _ _ _ (Hv 3 ltac:(lia))).
    done.
  Qed.
  Definition four (i : nat) (g : nat -> T) : list (nat * (T -> T)) := (fun l => (i + l, fun _ => g l)) <$> seq 0 4.
  Lemma store_ok off (v : list T) i g : (off + i) mod 4 = 0 -> i + 3 < length v ->
    store_pd off v i (vec4 g) = Ret (applyL (four i g) v).
  Proof.
    intros Ha Hv. unfold store_pd. rewrite aligned_ok by done. unfold vec4.
    rewrite vset_ok by lia. cbn [pbind]. rewrite vset_ok by (rewrite length_applyL; lia). cbn [pbind].
    rewrite vset_ok by (rewrite !length_applyL; lia). cbn [pbind]. rewrite vset_ok by (rewrite !length_applyL; lia).
    unfold four. cbn. rewrite Nat.add_0_r. done.
  Qed.
  Lemma gget_ok {E} (v : list E) i x : v !! i = Some x -> gget (T := T) v i = Ret x.
  Proof. unfold gget. by intros ->. Qed.
  Lemma gset_ok {E} (v : list E) i x : i < length v -> gset (T := T) v i x = Ret (applyL [(i, fun _ => x)] v).
  Proof.
    intros Hi. unfold gset. rewrite (proj2 (Nat.ltb_lt _ _)) by done. rewrite applyL_one.
    f_equal. symmetry. apply list_eq. intros p. destruct (decide (p = i)) as [->|Hne].
    - rewrite list_lookup_alter, list_lookup_insert by done. by destruct (lookup_lt_is_Some_2 v i Hi) as [y ->].
    - by rewrite list_lookup_alter_ne, list_lookup_insert_ne by done.
  Qed.
  (** Read, modify, write. *)
  Lemma gmod_ok {E} (v : list E) i (f : E -> E) : i < length v ->
    (let! r := gget (T := T) v i in gset v i (f r)) = Ret (applyL [(i, f)] v).
  Proof.
    intros Hi. destruct (lookup_lt_is_Some_2 v i Hi) as [y Hy]. rewrite (gget_ok _ _ _ Hy). cbn [pbind].
    rewrite gset_ok by done. f_equal. rewrite !applyL_one. apply list_eq. intros p.
    destruct (decide (p = i)) as [->|Hne]; [|by rewrite !list_lookup_alter_ne]. by rewrite !list_lookup_alter, Hy.
  Qed.
  Lemma fmadd_vec fma (a b c : nat -> T) : fmadd_pd fma (vec4 a) (vec4 b) (vec4 c) = vec4 (fun l => fma (a l) (b l) (c l)).
  Proof. done. Qed.
  Lemma foldl_vec {X} fma (a b : X -> nat -> T) c (L : list X) :
    foldl (fun v x => fmadd_pd fma (vec4 (a x)) (vec4 (b x)) v) (vec4 c) L =
    vec4 (fun l => foldl (fun v x => fma (a x l) (b x l) v) (c l) L).
  Proof. revert c. induction L as [|x L IH]; intros c; [done|]. cbn [foldl]. rewrite fmadd_vec. apply IH. Qed.
  Lemma fold_upd_fmap' {E X} (g : X -> E -> E) l v : fold_upd (g <$> l) v = foldl (fun a x => g x a) v l.
  Proof. unfold fold_upd. revert v. induction l as [|x l IH]; intros v; simpl; [done|apply IH]. Qed.
End Vec.

(** ** Rectangles inside a local block of row width W *)
Section Rect.
  Context {T : Type}.
  Context (W : nat).
  Definition rect_us (r0 h c0 w : nat) (f : nat -> nat -> T -> T) : list (nat * (T -> T)) :=
    seq 0 h ≫= fun a => (fun c => ((r0 + a) * W + (c0 + c), f (r0 + a) (c0 + c))) <$> seq 0 w.
  Lemma contrib_fmap_seq {X} (l0 : nat) (p : X -> nat) (g : X -> T -> T) (L : list X) x :
    NoDup L -> x ∈ L -> p x = l0 -> (forall y, y ∈ L -> p y = l0 -> y = x) -> contrib l0 ((fun x => (p x, g x)) <$> L) = [g x].
  Proof.
    intros Hnd Hx Hp Hi. rewrite <- (bind_ret_fmap (fun x => (p x, g x))), contrib_bind, (bind_select _ _ x); [|done|done|].
    - rewrite <- Hp. apply contrib_single_eq.
    - intros y Hy Hne. apply contrib_single_ne. intros E. apply Hne. by apply Hi.
  Qed.
  Lemma elem_rect r0 h c0 w f u : u ∈ rect_us r0 h c0 w f -> exists I J, r0 <= I < r0 + h /\ c0 <= J < c0 + w /\ u = (I * W + J, f I J).
  Proof.
    intros (a&(c&Hu&Hc%elem_of_seq)%elem_of_list_fmap&Ha%elem_of_seq)%elem_of_list_bind.
    exists (r0 + a), (c0 + c). split_and!; [lia|lia|lia|lia|exact Hu].
  Qed.
  Lemma contrib_rect_in r0 h c0 w f I J : c0 + w <= W -> r0 <= I < r0 + h -> c0 <= J < c0 + w ->
    contrib (I * W + J) (rect_us r0 h c0 w f) = [f I J].
  Proof.
    intros Hw HI HJ. unfold rect_us. rewrite contrib_bind, (bind_select _ _ (I - r0)); [|apply NoDup_seq|apply elem_of_seq; lia|].
    - rewrite (contrib_fmap_seq _ (fun c => (r0 + (I - r0)) * W + (c0 + c)) (fun c => f (r0 + (I - r0)) (c0 + c)) _ (J - c0)).
      + replace (r0 + (I - r0)) with I by lia. replace (c0 + (J - c0)) with J by lia. done.
      + apply NoDup_seq.
      + apply elem_of_seq. lia.
      + replace (r0 + (I - r0)) with I by lia. lia.
      + intros y _ E. replace (r0 + (I - r0)) with I in E by lia. lia.
    - intros a Ha%elem_of_seq Hne. apply contrib_none. intros u (c&->&Hc%elem_of_seq)%elem_of_list_fmap. cbn [fst]. intros E.
      apply mixed_inj in E as [? ?]; lia.
  Qed.
  Lemma contrib_rect_out r0 h c0 w f I J : c0 + w <= W -> J < W -> ~ (r0 <= I < r0 + h /\ c0 <= J < c0 + w) ->
    contrib (I * W + J) (rect_us r0 h c0 w f) = [].
  Proof.
    intros Hw HJ Hn. apply contrib_none. intros u Hu. apply elem_rect in Hu as (I'&J'&HI'&HJ'&->). cbn [fst]. intros E.
    apply mixed_inj in E as [-> ->]; [|lia|lia]. apply Hn. lia.
  Qed.
  (** Tiles of size h x w cover a block of bx rows once. *)
  Lemma contrib_tiles bx h w f I J : 0 < h -> 0 < w -> (h | bx) -> (w | W) -> I < bx -> J < W ->
    contrib (I * W + J) (rng 0 bx h ≫= fun ii => rng 0 W w ≫= fun jj => rect_us ii h jj w f) = [f I J].
  Proof.
    intros Hh Hw Hdh Hdw HI HJ.
    destruct (find_blk bx h I Hh HI) as (ii&r&Hii&Hr&EI). destruct (find_blk W w J Hw HJ) as (jj&c&Hjj&Hc&EJ).
    assert (forall x, x ∈ rng 0 W w -> x + w <= W) as Hlast.
    { intros x Hx. pose proof (corner_row W w Hw Hdw x (w - 1) Hx ltac:(lia)). lia. }
    assert (forall b n x y, 0 < b -> x ∈ rng 0 n b -> y ∈ rng 0 n b -> y <> x -> forall d, d < b -> ~ (y <= x + d < y + b)) as Hdisj.
    { clear. intros b n x y Hb Hx Hy Hne d Hd Hc. apply elem_of_rng in Hx as (q&->&_); [|done]. apply elem_of_rng in Hy as (q'&->&_); [|done].
      rewrite !Nat.add_0_l in *. assert (q * b + d = q' * b + (q * b + d - q' * b)) as E by lia. apply mixed_inj in E as [-> ?]; [done|done|lia]. }
    rewrite contrib_bind, (bind_select _ _ ii); [|by apply NoDup_rng|done|].
    - rewrite contrib_bind, (bind_select _ _ jj); [|by apply NoDup_rng|done|].
      + apply contrib_rect_in; [by apply Hlast|lia|lia].
      + intros jj' Hjj' Hne. apply contrib_rect_out; [by apply Hlast|done|]. intros [_ Hc']. subst J.
        by apply (Hdisj w W jj jj' Hw Hjj Hjj' Hne c Hc).
    - intros ii' Hii' Hne. rewrite contrib_bind. apply bind_nil. intros jj' Hjj'.
      apply contrib_rect_out; [by apply Hlast|done|]. intros [Hr' _]. subst I.
      by apply (Hdisj h bx ii ii' Hh Hii Hii' Hne r Hr).
  Qed.
  (** A rectangle of constants that were computed from the old contents. *)
  Lemma rect_const r0 h c0 w (F : nat -> nat -> T -> T) (S : nat -> nat -> T) s bx :
    length s = bx * W -> c0 + w <= W -> r0 + h <= bx ->
    (forall I J, r0 <= I < r0 + h -> c0 <= J < c0 + w -> s !! (I * W + J) = Some (S I J)) ->
    applyL (rect_us r0 h c0 w (fun I J _ => F I J (S I J))) s = applyL (rect_us r0 h c0 w F) s.
  Proof.
    intros Hs Hw Hh HS. apply list_eq. intros p. rewrite !applyL_lookup.
    destruct (decide (p < bx * W)) as [Hp|Hp]; [|rewrite (proj2 (lookup_ge_None s p)) by lia; done].
    assert (W <> 0) as HW by (intros ->; lia).
    pose proof (Nat.div_mod p W HW) as Ed. pose proof (Nat.mod_upper_bound p W HW) as Hm.
    rewrite Nat.mul_comm in Ed. rewrite Ed. set (I := p / W) in *. set (J := p mod W) in *.
    destruct (decide (r0 <= I < r0 + h)) as [HI|HI]; [destruct (decide (c0 <= J < c0 + w)) as [HJ|HJ]|].
    - rewrite !contrib_rect_in by done. by rewrite HS.
    - rewrite !contrib_rect_out by tauto. done.
    - rewrite !contrib_rect_out by tauto. done.
  Qed.
End Rect.

(** ** Multiples of four *)
Lemma aligned4 off i : off mod 4 = 0 -> (4 | i) -> (off + i) mod 4 = 0.
Proof. intros Ho [q ->]. by rewrite Nat.mod_add. Qed.
Lemma rng_multiple n b x : 0 < b -> x ∈ rng 0 n b -> (b | x).
Proof. intros Hb Hx. apply elem_of_rng in Hx as (q&->&_); [|done]. exists q. lia. Qed.
Lemma fmap_seq_ext {X} (f g : nat -> X) n : (forall x, x < n -> f x = g x) -> f <$> seq 0 n = g <$> seq 0 n.
Proof. intros He. apply Forall_fmap_ext_1, Forall_forall. intros x Hx%elem_of_seq. apply He. lia. Qed.

Section Rows.
  Context {T : Type} `{NumOps T}.
  Lemma four_row w base (g : nat -> T) : (4 | w) ->
    (rng 0 w 4 ≫= fun k => four (base + k) (fun l => g (k + l))) = (fun c => (base + c, fun _ => g c)) <$> seq 0 w.
  Proof.
    intros Hw. rewrite <- (seq_by 4 w (fun c => (base + c, fun _ : T => g c))) by (lia || exact Hw).
    apply bind_ext. intros k _. apply fmap_seq_ext. intros l _. by rewrite Nat.add_assoc.
  Qed.
  Lemma rect_all W bx (z : T) s : length s = bx * W -> applyL (rect_us W 0 bx 0 W (fun _ _ _ => z)) s = replicate (bx * W) z.
  Proof.
    intros Hs. apply list_eq. intros p. rewrite applyL_lookup. destruct (decide (p < bx * W)) as [Hp|Hp].
    - assert (W <> 0) as HW by (intros ->; lia).
      pose proof (Nat.div_mod p W HW) as Ed. pose proof (Nat.mod_upper_bound p W HW) as Hm. rewrite Nat.mul_comm in Ed.
      assert (p / W < bx) as HI by (apply Nat.div_lt_upper_bound; lia).
      rewrite Ed, contrib_rect_in by lia. rewrite lookup_replicate_2 by (by apply mixed_lt).
      destruct (lookup_lt_is_Some_2 s (p / W * W + p mod W)) as [x ->]; [|done]. rewrite Hs. by apply mixed_lt.
    - rewrite !(proj2 (lookup_ge_None _ _)); [done| |lia]. rewrite replicate_length. lia.
  Qed.
  Lemma intrin_zero_ok bx by_ (s : list T) : (4 | by_) -> length s = bx * by_ -> intrin_zero bx by_ s = Ret (replicate (bx * by_) nzero).
  Proof.
    intros H4 Hs. unfold intrin_zero.
    rewrite (forS1_applyG (bx * by_) bx _ (fun ii => rng 0 by_ 4 ≫= fun jj => four (ii * by_ + jj) (fun _ => nzero))); [|done|].
    - f_equal. rewrite <- (rect_all by_ bx nzero s Hs). unfold rect_us. f_equal. apply bind_ext. intros ii _.
      by rewrite (four_row by_ (ii * by_) (fun _ => nzero) H4).
    - intros ii s1 Hii Hs1. apply (forS_applyG (bx * by_)); [lia|done|]. intros jj s2 Hjj Hs2.
      pose proof (corner_row by_ 4 ltac:(lia) H4 jj 3 Hjj ltac:(lia)).
      apply (store_ok 0 s2 _ (fun _ => nzero)).
      + apply (aligned4 0); [done|]. apply Nat.divide_add_r; [by apply Nat.divide_mul_r|]. apply (rng_multiple by_ 4 jj); [lia|done].
      + rewrite Hs2. pose proof (mixed_lt by_ bx ii (jj + 3) Hii ltac:(lia)). lia.
  Qed.
  Lemma intrin_copy_ok off (M : list T) n row col b w s :
    off mod 4 = 0 -> (4 | n) -> (4 | w) -> (4 | col) -> n * n <= length M -> length s = b * w ->
    (forall ii, ii < b -> row + ii < n) -> (forall k, k < w -> col + k < n) ->
    exists s', intrin_copy off M n row col b w s = Ret s' /\ is_strip M n row col b w s'.
  Proof.
    intros Hoff Hn Hw Hcol HM Hs Hr Hk.
    exists (applyL (rect_us w 0 b 0 w (fun I J _ => ent n M (row + I) (col + J))) s). split.
    - unfold intrin_copy.
      rewrite (forS1_applyG (b * w) b _ (fun ii => rng 0 w 4 ≫= fun k => four (ii * w + k) (fun l => ent n M (row + ii) (col + (k + l))))); [|done|].
      + f_equal. unfold rect_us. f_equal. apply bind_ext. intros ii _.
        by rewrite (four_row w (ii * w) (fun J => ent n M (row + ii) (col + J)) Hw).
      + intros ii s1 Hii Hs1. apply (forS_applyG (b * w)); [lia|done|]. intros k s2 Hkk Hs2.
        pose proof (corner_row w 4 ltac:(lia) Hw k 3 Hkk ltac:(lia)) as Hk3. pose proof (rng_multiple w 4 k ltac:(lia) Hkk) as H4k.
        rewrite (load_ok off M _ (fun l => ent n M (row + ii) (col + (k + l)))).
        * cbn [pbind]. apply store_ok.
          -- apply (aligned4 0); [done|]. apply Nat.divide_add_r; [by apply Nat.divide_mul_r|exact H4k].
          -- rewrite Hs2. pose proof (mixed_lt w b ii (k + 3) Hii ltac:(lia)). lia.
        * apply aligned4; [done|]. apply Nat.divide_add_r; [by apply Nat.divide_mul_r|]. by apply Nat.divide_add_r.
        * intros l Hl. rewrite <- !Nat.add_assoc. apply ent_lookup.
          pose proof (mixed_lt n n (row + ii) (col + (k + l)) (Hr ii Hii) (Hk (k + l) ltac:(lia))). lia.
    - split; [by rewrite length_applyL|]. intros ii k Hii Hkk. rewrite applyL_lookup, contrib_rect_in by lia.
      destruct (lookup_lt_is_Some_2 s (ii * w + k)) as [x ->]; [|done]. rewrite Hs. by apply mixed_lt.
  Qed.

  (** Errors *)
  Lemma errD_load off (v : list T) i : errD ubE (load_pd off v i).
  Proof.
    unfold load_pd. destruct (negb _); [done|]. repeat (apply errD_bind; [by apply errD_vget|intros ?]). done.
  Qed.
  Lemma errD_store off (v : list T) i x : errD ubE (store_pd off v i x).
  Proof.
    unfold store_pd. destruct (negb _); [done|]. destruct x as [[[x0 x1] x2] x3].
    repeat (apply errD_bind; [by apply errD_vset|intros ?]). by apply errD_vset.
  Qed.
  Lemma errD_stream off i x : errD ubE (stream_pd (T := T) off i x).
  Proof.
    unfold stream_pd. destruct (negb _); [done|]. destruct x as [[[x0 x1] x2] x3].
    repeat (apply errD_bind; [by apply errD_wr|intros ?]). by apply errD_wr.
  Qed.
  Lemma errD_gget {E} (v : list E) i : errD ubE (gget (T := T) v i).
  Proof. unfold gget. by destruct (v !! i). Qed.
  Lemma errD_gset {E} (v : list E) i x : errD ubE (gset (T := T) v i x).
  Proof. unfold gset. by destruct (i <? length v). Qed.
  Lemma noret_misaligned off (v : list T) i : (off + i) mod 4 <> 0 -> noret (load_pd off v i).
  Proof. intros Hm. unfold load_pd. by rewrite (proj2 (Nat.eqb_neq _ _)). Qed.
  Lemma noret_load off (v : list T) i : length v <= i + 3 -> noret (load_pd off v i).
  Proof.
    intros Hv. unfold load_pd. destruct (negb _); [done|]. do 3 (apply noret_bind_r; intros ?). by apply noret_bind_l, noret_vget.
  Qed.
End Rows.
