(** The entries of the kernels as sums of products, and what follows for whole matrices. *)
From Coq Require Import ZArith Reals Psatz.
From Flocq Require Import Core IEEE754.Binary IEEE754.Bits.
From Verif Require Import Base Num Tools Spec SpecTiled SpecContract SpecExp SpecExp2 MExp2 MCeil PCeil MDouble PDouble MContract MFast MApp SpecApp SpecRound PRound PRound2 PContract PContract3 SpecFast PFast.
Local Open Scope R_scope.

(** * Lists of products *)
Lemma bind_app_perm {A B} (f g : A -> list B) (l : list A) : (l ≫= fun a => f a ++ g a) ≡ₚ (l ≫= f) ++ (l ≫= g).
Proof.
  induction l as [|a l IH]; [done|]. cbn. rewrite IH. rewrite <- !app_assoc. apply Permutation_app_head.
  rewrite !app_assoc. apply Permutation_app_tail, Permutation_app_comm.
Qed.
Lemma bind_swap {A B C} (f : A -> B -> list C) (l : list A) (m : list B) :
  (l ≫= fun a => m ≫= fun b => f a b) ≡ₚ (m ≫= fun b => l ≫= fun a => f a b).
Proof.
  induction l as [|a l IH]; [by induction m|]. cbn. rewrite IH. symmetry. apply (bind_app_perm (f a) (fun b => l ≫= fun a => f a b)).
Qed.
Lemma bind_perm {A B} (f g : A -> list B) (l : list A) : (forall a, a ∈ l -> f a ≡ₚ g a) -> (l ≫= f) ≡ₚ (l ≫= g).
Proof.
  induction l as [|a l IH]; intros Hf; [done|]. cbn. rewrite (Hf a) by constructor. apply Permutation_app_head, IH. intros; apply Hf. by constructor.
Qed.
Lemma lanes_perm b m : (seq 0 4 ≫= fun l => seq 0 m ≫= fun r => [b + 4 * r + l])%nat ≡ₚ seq b (4 * m).
Proof.
  rewrite (bind_swap (fun l r => [b + 4 * r + l])%nat). induction m as [|m IH]; [done|].
  rewrite (seq_S m 0), bind_app, IH. replace (4 * S m)%nat with (4 * m + 4)%nat by lia. rewrite seq_app. apply Permutation_app_head.
  cbn [mbind list_bind Datatypes.app seq]. replace (0 + m)%nat with m by lia.
  match goal with |- ?a ≡ₚ ?b => assert (a = b) as ->; [|done] end. cbn. repeat (f_equal; try lia).
Qed.
Lemma chunks_perm kc Q : (seq 0 Q ≫= fun q => seq (q * kc) kc) = seq 0 (Q * kc).
Proof. apply chunk_seq. Qed.

Lemma foldl_ext' {A B} (f g : A -> B -> A) (l : list B) a : (forall a b, f a b = g a b) -> foldl f a l = foldl g a l.
Proof. intros Hf. revert a. induction l as [|b l IH]; intros a; [done|]. cbn. by rewrite Hf, IH. Qed.
Section Forms.
  Context (x y : nat -> binary64).
  Notation pr := (prods x y).
  (** A term adds up the products [ks] in some order. *)
  Definition adds (e : term) (ks : list nat) : Prop := exists ls, ls ≡ₚ ks /\ pr e ls.
  Lemma adds_zero : adds (TNum nzero) [].
  Proof. exists []. split; [done|constructor]. Qed.
  Lemma adds_add a b ks ls : adds a ks -> adds b ls -> adds (TAdd a b) (ks ++ ls).
  Proof. intros (k&E1&H1) (l&E2&H2). exists (k ++ l). split; [by rewrite E1, E2|by constructor]. Qed.
  Lemma adds_perm e ks ls : ks ≡ₚ ls -> adds e ks -> adds e ls.
  Proof. intros E (k&E1&H1). exists k. split; [by rewrite E1|done]. Qed.
  Lemma adds_mul k : adds (TMul (TNum (x k)) (TNum (y k))) [k].
  Proof. exists [k]. split; [done|constructor]. Qed.
  Lemma adds_mul' k : adds (TMul (TNum (y k)) (TNum (x k))) [k].
  Proof. exists [k]. split; [done|constructor]. Qed.
  Lemma adds_foldl {A} (f : term -> A -> term) (G : A -> list nat) (l : list A) a ks :
    adds a ks -> (forall q e ls, q ∈ l -> adds e ls -> adds (f e q) (ls ++ G q)) -> adds (foldl f a l) (ks ++ (l ≫= G)).
  Proof.
    revert a ks. induction l as [|q l IH]; intros a ks Ha Hf; [by rewrite app_nil_r|].
    cbn [foldl mbind list_bind]. rewrite app_assoc. apply IH; [apply Hf; [constructor|done]|]. intros p e ls Hp. apply Hf. by constructor.
  Qed.
  Lemma adds_dot {A} (f : A -> term) (G : A -> list nat) (l : list A) : (forall q, q ∈ l -> adds (f q) (G q)) ->
    adds (foldl (fun acc q => nadd acc (f q)) nzero l) (l ≫= G).
  Proof.
    intros Hf. change (l ≫= G) with ([] ++ (l ≫= G)). apply adds_foldl; [exact adds_zero|]. intros q e ls Hq He. apply adds_add; [done|by apply Hf].
  Qed.
  Lemma adds_machine e ks v : adds e ks -> machine e v -> exists e' ls, ls ≡ₚ ks /\ pr e' ls /\ compiled e' v.
  Proof.
    intros (k&E1&H1) (e'&Hr&Hc). destruct (prods_rearranged x y _ _ Hr) as [Hp _]. destruct (Hp _ H1) as (ls&E2&H2).
    exists e', ls. split; [by rewrite E2|done].
  Qed.
  Lemma singles (l : list nat) : (l ≫= fun k => [k]) = l.
  Proof. induction l as [|k l IH]; [done|]. cbn. by rewrite <- IH at 2. Qed.

  (** ** The forms of SpecExp and SpecExp2 *)
  Notation tx := (fun k => TNum (x k)).
  Notation ty := (fun k => TNum (y k)).
  Lemma adds_straight N : adds (dot (fun k => TMul (TNum (x k)) (TNum (y k))) (seq 0 N)) (seq 0 N).
  Proof. rewrite <- (singles (seq 0 N)) at 2. apply adds_dot. intros k _. apply adds_mul. Qed.
  Lemma adds_dot_lanes kc N f : (0 < kc)%nat -> (4 | kc)%nat -> (kc | N)%nat -> (forall k, adds (f k) [k]) -> adds (dot_lanes kc f N) (seq 0 N).
  Proof.
    intros Hk [m Em] [Q EQ] Hf. replace (seq 0 N) with (seq 0 Q ≫= fun q => seq (q * kc) kc) by (rewrite chunks_perm; f_equal; lia).
    unfold dot_lanes. replace (N / kc)%nat with Q by (rewrite EQ; symmetry; apply Nat.div_mul; lia).
    change (seq 0 Q ≫= fun q => seq (q * kc) kc) with ([] ++ (seq 0 Q ≫= fun q => seq (q * kc) kc)).
    apply adds_foldl; [exact adds_zero|]. intros q e ls _ He.
    eapply adds_perm; [apply Permutation_app_head; replace kc with (4 * m)%nat at 2 by lia; apply (lanes_perm (q * kc) m)|].
    apply adds_foldl; [done|]. intros l e' ls' _ He'. apply adds_add; [done|]. unfold lane.
    replace (kc / 4)%nat with m by (rewrite Em; symmetry; apply Nat.div_mul; lia). apply adds_dot. intros r _. apply Hf.
  Qed.
  Lemma adds_fma_dot (idx : nat -> nat) l : adds (fma_dot no_fma (fun r => TNum (x (idx r))) (fun r => TNum (y (idx r))) l) (l ≫= fun r => [idx r]).
  Proof.
    unfold fma_dot. change (l ≫= fun r => [idx r]) with ([] ++ (l ≫= fun r => [idx r])). apply adds_foldl; [exact adds_zero|].
    intros r e ls _ He. unfold no_fma. eapply adds_perm; [apply Permutation_app_comm|]. apply adds_add; [apply adds_mul|done].
  Qed.
  Lemma adds_fma_lanes kc N : (0 < kc)%nat -> (4 | kc)%nat -> (kc | N)%nat ->
    adds (foldl (fun acc q => foldl (fun acc l => nadd acc (fma_lane no_fma kc tx ty (q * kc) l)) acc (seq 0 4)) nzero (seq 0 (N / kc))) (seq 0 N).
  Proof.
    intros Hk [m Em] [Q EQ]. replace (seq 0 N) with (seq 0 Q ≫= fun q => seq (q * kc) kc) by (rewrite chunks_perm; f_equal; lia).
    replace (N / kc)%nat with Q by (rewrite EQ; symmetry; apply Nat.div_mul; lia).
    change (seq 0 Q ≫= fun q => seq (q * kc) kc) with ([] ++ (seq 0 Q ≫= fun q => seq (q * kc) kc)).
    apply adds_foldl; [exact adds_zero|]. intros q e ls _ He.
    eapply adds_perm; [apply Permutation_app_head; replace kc with (4 * m)%nat at 2 by lia; apply (lanes_perm (q * kc) m)|].
    apply adds_foldl; [done|]. intros l e' ls' _ He'. apply adds_add; [done|]. unfold fma_lane.
    replace (kc / 4)%nat with m by (rewrite Em; symmetry; apply Nat.div_mul; lia). apply (adds_fma_dot (fun r => q * kc + 4 * r + l)%nat).
  Qed.
End Forms.

(** * One matrix *)
Section Matrix.
  Context (N : nat) (A B : list binary64).
  Notation fx i := (fun k => ent N A i k).
  Notation fy tr j := (fun k => if tr : bool then ent N B j k else ent N B k j).
  (** Entry (i, j) of the matrix [f] adds up the N products. *)
  Definition entries_add (tr : bool) (f : nat -> nat -> term) : Prop :=
    forall i j, (i < N)%nat -> (j < N)%nat -> adds (fx i) (fy tr j) (f i j) (seq 0 N).
  Lemma near_product_entries tr f D : entries_add tr f -> is_matrix N f D ->
    forall C, Forall2 machine D C -> near_product tr N A B C.
  Proof.
    intros Hf [HL HD] C HC. split; [by rewrite <- (Forall2_length _ _ _ HC)|]. intros i j Hi Hj.
    specialize (HD i j Hi Hj). eapply Forall2_lookup_l in HC as (c&Hc&Hm); [|exact HD]. exists c. split; [done|]. intros Hfin.
    destruct (adds_machine _ _ _ _ _ (Hf i j Hi Hj) Hm) as (e'&ls&Hp&Hpr&Hcc).
    pose proof (within_perm _ _ _ _ _ Hp (prods_err _ _ _ _ Hpr _ Hcc Hfin)) as [_ Ho]. unfold off in Ho. rewrite seq_length in Ho.
    unfold sharp_bound, magnitude, exact_entry, factor_b. exact Ho.
  Qed.
  Lemma near_finite_entries tr f D : (length A = N * N)%nat -> (length B = N * N)%nat -> unit_entries A -> unit_entries B -> (Z.of_nat N <= 524288)%Z ->
    entries_add tr f -> is_matrix N f D ->
    forall C, Forall2 machine D C -> near_finite_product tr N A B C.
  Proof.
    intros HA HB HuA HuB HN Hf HD C HC. pose proof (near_product_entries tr f D Hf HD C HC) as [HL HC'].
    split; [done|]. intros i j Hi Hj. destruct (HC' i j Hi Hj) as (c&Hc&He). exists c. split; [done|].
    assert (Hfin : finite64 c = true); [|split; [done|by apply He]].
    destruct HD as [_ HD]. specialize (HD i j Hi Hj). eapply Forall2_lookup_l in HC as (c'&Hc'&Hm); [|exact HD].
    pose proof (eq_trans (eq_sym Hc') Hc) as [= ->]. clear He Hc' HC' HL HD.
    destruct (adds_machine _ _ _ _ _ (Hf i j Hi Hj) Hm) as (e'&ls&Hp&Hpr&Hcc).
    assert (Hua : forall k, finite64 (ent N A i k) = true /\ Rabs (val64 (ent N A i k)) <= 1).
    { intros k. unfold ent. destruct (A !! _) as [a|] eqn:E; [apply HuA; by apply elem_of_list_lookup_2 in E|].
      split; [done|]. change (Rabs 0 <= 1). rewrite Rabs_R0. lra. }
    assert (Hub : forall k, finite64 (fy tr j k) = true /\ Rabs (val64 (fy tr j k)) <= 1).
    { intros k. destruct tr; unfold ent; (destruct (B !! _) as [a|] eqn:E; [apply HuB; by apply elem_of_list_lookup_2 in E|]);
      (split; [done|]); change (Rabs 0 <= 1); rewrite Rabs_R0; lra. }
    assert (H1 : val64 (none1 : binary64) = 1) by apply one_value.
    apply (prods_finite (fx i) (fy tr j)) with (P := none1 : binary64) (N := N) (ks := ls) (e := e').
    - intros k. apply Hua.
    - intros k. apply Hub.
    - rewrite H1. lra.
    - intros k. rewrite H1, Rabs_mult, <- (Rmult_1_l 1). apply Rmult_le_compat; [apply Rabs_pos..|apply Hua|apply Hub].
    - rewrite H1, Rmult_1_r. assert (HNr : INR N <= 524288) by (rewrite INR_IZR_INZ; apply IZR_le; exact HN).
      pose proof (w_two N ltac:(lia)) as Hw. pose proof big_bpow as Hb. pose proof (pos_INR N). pose proof (w_ge N).
      apply Rle_lt_trans with (2 * 524288); [apply Rmult_le_compat; lra|lra].
    - done.
    - rewrite Hp, seq_length. done.
    - done.
  Qed.
  (** Exact values *)
  Lemma exact_entries tr f D (r : nat -> nat -> R) : entries_add tr f -> is_matrix N f D ->
    (forall i j, (i < N)%nat -> (j < N)%nat ->
      (forall k, finite64 (fx i k) = true /\ finite64 (fy tr j k) = true) /\
      (forall ls, ls ⊆+ seq 0 N -> double_sum (fx i) (fy tr j) ls) /\
      rsum (fun k => val64 (fx i k) * val64 (fy tr j k)) (seq 0 N) = r i j) ->
    forall C, Forall2 machine D C -> has_values N r C.
  Proof.
    intros Hf [HL HD] Hr C HC. split; [by rewrite <- (Forall2_length _ _ _ HC)|]. intros i j Hi Hj.
    specialize (HD i j Hi Hj). eapply Forall2_lookup_l in HC as (c&Hc&Hm); [|exact HD]. exists c. split; [done|].
    destruct (adds_machine _ _ _ _ _ (Hf i j Hi Hj) Hm) as (e'&ls&Hp&Hpr&Hcc). destruct (Hr i j Hi Hj) as (Hfin&Hd&E).
    destruct (prods_exact (fx i) (fy tr j) (fun k => proj1 (Hfin k)) (fun k => proj2 (Hfin k)) e' ls Hpr) with (v := c) as [F V]; [|done|].
    - intros ms Hms. apply Hd. rewrite <- Hp. done.
    - split; [done|]. rewrite V, <- E. by apply rsum_perm.
  Qed.

  (** ** The entries of the kernels *)
  Notation TA := (TNum <$> A). Notation TB := (TNum <$> B).
  Lemma add_prod : entries_add false (prod_entry N TA TB).
  Proof.
    intros i j _ _. unfold prod_entry. erewrite dot_ext; [apply (adds_straight (fx i) (fy false j))|]. intros k _. cbn. by rewrite !ent_terms.
  Qed.
  Lemma add_prod_t : entries_add true (prod_t_entry N TA TB).
  Proof.
    intros i j _ _. unfold prod_t_entry. erewrite dot_ext; [apply (adds_straight (fx i) (fy true j))|]. intros k _. cbn. by rewrite !ent_terms.
  Qed.
  Lemma add_lanes kc : (0 < kc)%nat -> (4 | kc)%nat -> (kc | N)%nat -> entries_add true (lanes_entry kc N TA TB).
  Proof.
    intros H1 H2 H3 i j _ _. unfold lanes_entry. apply adds_dot_lanes; [done..|]. intros k. rewrite !ent_terms. apply (adds_mul (fx i) (fy true j)).
  Qed.
  Lemma add_asm : (0 < N)%nat -> (4 | N)%nat -> entries_add true (fun i j => dot_lanes N (fun k => nmul (ent N TB j k) (ent N TA i k)) N).
  Proof.
    intros H1 H2 i j _ _. apply adds_dot_lanes; [done|done|done|]. intros k. rewrite !ent_terms. apply (adds_mul' (fx i) (fy true j)).
  Qed.
  Lemma add_fma : entries_add false (fma_entry no_fma N TA TB).
  Proof.
    intros i j _ _. unfold fma_entry. replace (seq 0 N) with (seq 0 N ≫= fun k => [k]) at 2 by apply singles.
    pose proof (adds_fma_dot (fx i) (fy false j) (fun r => r) (seq 0 N)) as H. cbn in H.
    unfold fma_dot in *. erewrite foldl_ext'; [exact H|]. intros a k. cbn. by rewrite !ent_terms.
  Qed.
  Lemma add_fma_lanes kc : (0 < kc)%nat -> (4 | kc)%nat -> (kc | N)%nat -> entries_add true (fma_lanes_entry no_fma kc N TA TB).
  Proof.
    intros H1 H2 H3 i j _ _. pose proof (adds_fma_lanes (fx i) (fy true j) kc N H1 H2 H3) as H. unfold fma_lanes_entry.
    erewrite foldl_ext'; [exact H|]. intros a q. apply foldl_ext'. intros a' l. f_equal. unfold fma_lane, fma_dot.
    apply foldl_ext'. intros a'' r. by rewrite !ent_terms.
  Qed.
End Matrix.
