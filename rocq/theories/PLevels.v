(** The seven loops of a cache-blocked kernel, for any innermost body; programs
    that fail on every path. *)
From Verif Require Import Tools Tools2 MIter SpecIter PIter PIter2 PKernels PRecursive PLooped MTiled SpecTiled PTiled PTiled2.

(** A ragged partition: the last block may be cut off at [hi]. *)
Lemma sel_ragged {Y} lo hi st i (g : nat -> list Y) (v : list Y) : 0 < st ->
  (forall x, x ∈ rng lo hi st -> g x = if decide (x <= i < x + st /\ i < hi) then v else []) ->
  rng lo hi st ≫= g = if decide (lo <= i < hi) then v else [].
Proof.
  intros Hst Hg. destruct (decide (lo <= i < hi)) as [Hi|Hi].
  - pose proof (Nat.div_mod (i - lo) st ltac:(lia)). pose proof (Nat.mod_upper_bound (i - lo) st ltac:(lia)).
    set (q := (i - lo) / st) in *.
    rewrite (bind_select _ _ (lo + q * st)); [|by apply NoDup_rng|apply elem_of_rng; [done|]; exists q; lia|].
    + rewrite Hg by (apply elem_of_rng; [done|]; exists q; lia). rewrite decide_True by lia. done.
    + intros x Hx Hne. rewrite Hg by done. apply elem_of_rng in Hx as (q'&->&Hx); [|done]. rewrite decide_False; [done|].
      intros [Hin _]. apply Hne. f_equal. f_equal. destruct (decide (q' < q)); [nia|]. destruct (decide (q < q')); nia.
  - apply bind_nil. intros x Hx. rewrite Hg by done. apply rng_bounds in Hx. rewrite decide_False; [done|]. lia.
Qed.
Lemma rng_round N st : 0 < st -> rng 0 N st = rng 0 (cdiv N st * st) st.
Proof. intros Hst. rewrite rng_0_exact by done. rewrite rng_explicit by done. rewrite Nat.sub_0_r. done. Qed.
Lemma round_up_pos N L : 0 < L -> 0 < N -> N <= cdiv N L * L.
Proof. intros HL HN. by apply (round_up_ge N L). Qed.

Section FailD.
  Context {T : Type}.
  (** Every path of [p] ends in a failure from [E]. *)
  Fixpoint failD {A} (E : err -> Prop) (p : prog T A) : Prop :=
    match p with
    | Ret _ => False
    | Err e => E e
    | Rd l k => forall o, dat o -> failD E (k o)
    | Wr l v k => dat (Some v) /\ forall b, failD E (k b)
    | Alloc l v k => dat (Some v) /\ failD E k
    | Par p q k => errD E p /\ errD E q /\ errD E k /\ (failD E p \/ failD E q \/ failD E k)
    end.
  Lemma failD_errD {A} E (p : prog T A) : failD E p -> errD E p.
  Proof. induction p; simpl; naive_solver. Qed.
  Lemma step_failD {A} E (p : prog T A) m p' m' :
    step A p m p' m' -> datm m -> failD E p -> failD E p' /\ datm m'.
  Proof.
    intros Hs. induction Hs as [A l k m|A l v k m w Hw|A l v k m Hw|A l v k m|A p p' q k m m' Hs IH|A p q q' k m m' Hs IH|A k m|A e q k m|A e p k m]; intros Hm He; simpl in *.
    - split; [|done]. apply He, Hm.
    - destruct He. split; [done|]. by apply datm_insert.
    - destruct He. done.
    - destruct He. split; [done|]. by apply datm_insert.
    - destruct He as (H1&H2&H3&H4). destruct (step_errD E _ _ _ _ Hs Hm H1) as [H1' Hm']. split; [|done]. split_and!; [done..|].
      destruct H4 as [H4|H4]; [left; by apply IH|by right].
    - destruct He as (H1&H2&H3&H4). destruct (step_errD E _ _ _ _ Hs Hm H2) as [H2' Hm']. split; [|done]. split_and!; [done..|].
      destruct H4 as [H4|[H4|H4]]; [by left|right; left; by apply IH|by do 2 right].
    - destruct He as (_&_&_&[[]|[[]|H]]). done.
    - by destruct He as (?&_).
    - by destruct He as (_&?&_).
  Qed.
  Theorem failD_must_fail {A} E (p : prog T A) m : failD E p -> datm m -> must_fail E p m.
  Proof.
    revert m. induction (next_wf p) as [p _ IH]. intros m Hf Hm. destruct (progress p m) as [Hp|Hs].
    - destruct p; try done. by constructor.
    - apply mf_step; [done|]. intros p' m' Hs'. destruct (step_failD E p m p' m' Hs' Hm Hf) as [Hf' Hm'].
      apply IH; [by exists m, m'|done|done].
  Qed.
  Lemma failD_bind_l {A B} E (f : A -> prog T B) (p : prog T A) :
    failD E p -> (forall a, errD E (f a)) -> failD E (pbind f p).
  Proof.
    intros Hp Hf. induction p as [A a|A e|A l k IH|A l v k IH|A l v k IH|A p IHp q IHq k IHk]; simpl in *; try naive_solver.
    destruct Hp as (H1&H2&H3&H4). split_and!; [done|done|by apply errD_bind|].
    destruct H4 as [|[|]]; [by left|by right; left|right; right; by apply IHk].
  Qed.
  Lemma failD_bind_r {A B} E (f : A -> prog T B) (p : prog T A) :
    errD E p -> (forall a, failD E (f a)) -> failD E (pbind f p).
  Proof.
    intros Hp Hf. induction p as [A a|A e|A l k IH|A l v k IH|A l v k IH|A p IHp q IHq k IHk]; simpl in *; try naive_solver.
    destruct Hp as (H1&H2&H3). split_and!; [done|done|apply errD_bind; [done|intros a; by apply failD_errD]|].
    do 2 right. by apply IHk.
  Qed.
  Lemma failD_foldP {S X : Type} E (l : list X) (f : X -> S -> prog T S) s x0 :
    x0 ∈ l -> (forall x s, x ∈ l -> errD E (f x s)) -> (forall s, failD E (f x0 s)) -> failD E (foldP l f s).
  Proof.
    revert s. induction l as [|x l IH]; intros s Hin He Hf; [by apply elem_of_nil in Hin|]. cbn [foldP].
    apply elem_of_cons in Hin as [->|Hin].
    - apply failD_bind_l; [apply Hf|]. intros s'. apply errD_foldP. intros y s'' Hy. apply He, elem_of_cons. by right.
    - apply failD_bind_r; [apply He, elem_of_cons; by left|]. intros s'. apply IH; [done| |done]. intros y s'' Hy. apply He, elem_of_cons. by right.
  Qed.
  Lemma failD_forP E lo hi st (f : nat -> prog T unit) x0 : 0 < st ->
    x0 ∈ rng lo hi st -> (forall x, x ∈ rng lo hi st -> errD E (f x)) -> failD E (f x0) -> failD E (forP lo hi st f).
  Proof. intros Hst Hin He Hf. unfold forP. rewrite forS_step by done. apply (failD_foldP E _ _ _ x0 Hin); [intros x _ Hx; by apply He|intros _; exact Hf]. Qed.
  Lemma failD_parL {X : Type} E (l : list X) (f : X -> prog T unit) x0 :
    x0 ∈ l -> (forall x, x ∈ l -> errD E (f x)) -> failD E (f x0) -> failD E (parL l f).
  Proof.
    induction l as [|x l IH]; intros Hin He Hf; [by apply elem_of_nil in Hin|]. cbn [parL failD].
    assert (errD E (parL l f)) by (apply errD_parL; intros y Hy; apply He, elem_of_cons; by right).
    split_and!; [apply He, elem_of_cons; by left|done|done|].
    apply elem_of_cons in Hin as [->|Hin]; [by left|]. right; left. apply IH; [done| |done]. intros y Hy. apply He, elem_of_cons. by right.
  Qed.
  Lemma errD_forP E lo hi st (f : nat -> prog T unit) : 0 < st -> (forall x, x ∈ rng lo hi st -> errD E (f x)) -> errD E (forP lo hi st f).
  Proof. intros Hst Hf. unfold forP. rewrite forS_step by done. apply errD_foldP. intros x _ Hx. by apply Hf. Qed.
End FailD.

Section Levels.
  Context {T : Type} (b : blocks) (Hpos : all_positive b) (Hdiv : levels_divide b).
  Notation LX := (L1_X b). Notation LY := (L1_Y b). Notation LK := (L1_K b).
  Context (nx ny nk : nat).
  Notation X := (nx * L3_X b). Notation Y := (ny * L3_Y b). Notation K := (nk * L3_K b).

  (** The loop nest of one task. *)
  Definition nest (body : nat -> nat -> nat -> prog T unit) (x3 y3 : nat) : prog T unit :=
    forP 0 K (L3_K b) (fun k3 =>
      forP x3 (x3 + L3_X b) (L2_X b) (fun x2 =>
        forP y3 (y3 + L3_Y b) (L2_Y b) (fun y2 =>
          forP k3 (k3 + L3_K b) (L2_K b) (fun k2 =>
            forP x2 (x2 + L2_X b) LX (fun x1 =>
              forP y2 (y2 + L2_Y b) LY (fun y1 =>
                forP k2 (k2 + L2_K b) LK (fun k1 => body x1 y1 k1))))))).
  Definition nest_us (us : nat -> nat -> nat -> list (loc * (T -> T))) (x3 y3 : nat) : list (loc * (T -> T)) :=
    rng 0 K (L3_K b) ≫= fun k3 => rng x3 (x3 + L3_X b) (L2_X b) ≫= fun x2 => rng y3 (y3 + L3_Y b) (L2_Y b) ≫= fun y2 =>
      rng k3 (k3 + L3_K b) (L2_K b) ≫= fun k2 => rng x2 (x2 + L2_X b) LX ≫= fun x1 => rng y2 (y2 + L2_Y b) LY ≫= fun y1 =>
        rng k2 (k2 + L2_K b) LK ≫= fun k1 => us x1 y1 k1.
  (** Block (x1, y1, k1) of L1 size lies inside the L3 column (x3, y3). *)
  Definition inside (x3 y3 x1 y1 k1 : nat) : Prop :=
    ((LX | x1) /\ x3 <= x1 /\ x1 + LX <= x3 + L3_X b) /\
    ((LY | y1) /\ y3 <= y1 /\ y1 + LY <= y3 + L3_Y b) /\ (LK | k1) /\ k1 + LK <= K.

  Lemma rng_in lo n st x : x ∈ rng lo (lo + n * st) st -> 0 < st -> lo <= x /\ x + st <= lo + n * st /\ exists q, x = lo + q * st.
  Proof.
    clear. intros Hx Hst. apply elem_of_rng in Hx as (q&->&Hx); [|done]. assert (q * st + st <= n * st) by (apply mul_next; lia). split_and!; [lia..|by eexists].
  Qed.
  Lemma div_step L L' z q : (L | z) -> (L | L') -> (L | z + q * L').
  Proof. clear. intros Hz HL. apply Nat.divide_add_r; [exact Hz|]. apply Nat.divide_mul_r. exact HL. Qed.
  Lemma visit_inside x3 y3 k3 x2 y2 k2 x1 y1 k1 : (LX | x3) -> (LY | y3) ->
    k3 ∈ rng 0 K (L3_K b) -> x2 ∈ rng x3 (x3 + L3_X b) (L2_X b) -> y2 ∈ rng y3 (y3 + L3_Y b) (L2_Y b) ->
    k2 ∈ rng k3 (k3 + L3_K b) (L2_K b) -> x1 ∈ rng x2 (x2 + L2_X b) LX -> y1 ∈ rng y2 (y2 + L2_Y b) LY ->
    k1 ∈ rng k2 (k2 + L2_K b) LK -> inside x3 y3 x1 y1 k1.
  Proof.
    intros Dx Dy V1 V2 V3 V4 V5 V6 V7. destruct Hpos as ((P1&P2&P3)&(P4&P5&P6)&(P7&P8&P9)).
    destruct Hdiv as ((D1&D2&D3)&(D4&D5&D6)).
    assert (exists a, L3_X b = a * L2_X b) as [a1 A1] by exact D4. assert (exists a, L3_Y b = a * L2_Y b) as [a2 A2] by exact D5.
    assert (exists a, L3_K b = a * L2_K b) as [a3 A3] by exact D6. assert (exists a, L2_X b = a * LX) as [a4 A4] by exact D1.
    assert (exists a, L2_Y b = a * LY) as [a5 A5] by exact D2. assert (exists a, L2_K b = a * LK) as [a6 A6] by exact D3.
    rewrite A1 in V2. rewrite A2 in V3. rewrite A3 in V4. rewrite A4 in V5. rewrite A5 in V6. rewrite A6 in V7.
    apply (rng_in 0) in V1 as (V1&V1'&q1&Q1); [|done]. apply rng_in in V2 as (V2&V2'&q2&Q2); [|lia].
    apply rng_in in V3 as (V3&V3'&q3&Q3); [|lia]. apply rng_in in V4 as (V4&V4'&q4&Q4); [|lia].
    apply rng_in in V5 as (V5&V5'&q5&Q5); [|lia]. apply rng_in in V6 as (V6&V6'&q6&Q6); [|lia]. apply rng_in in V7 as (V7&V7'&q7&Q7); [|lia].
    rewrite <- A1 in V2'. rewrite <- A2 in V3'. rewrite <- A3 in V4'. rewrite <- A4 in V5'. rewrite <- A5 in V6'. rewrite <- A6 in V7'.
    split; [|split; [|split]].
    - split; [|lia]. rewrite Q5, Q2. apply Nat.divide_add_r; [|exists q5; reflexivity]. apply div_step; assumption.
    - split; [|lia]. rewrite Q6, Q3. apply Nat.divide_add_r; [|exists q6; reflexivity]. apply div_step; assumption.
    - rewrite Q7, Q4, Q1. apply Nat.divide_add_r; [|exists q7; reflexivity]. apply div_step; [|exact D3].
      apply Nat.divide_mul_r. apply (Nat.divide_trans _ _ _ D3 D6).
    - lia.
  Qed.

  (** Anything preserved by loops and true of the bodies is true of a task. *)
  Lemma nest_closed (Φ : prog T unit -> Prop) body x3 y3 : (LX | x3) -> (LY | y3) ->
    (forall lo hi st f, 0 < st -> (forall x, x ∈ rng lo hi st -> Φ (f x)) -> Φ (forP lo hi st f)) ->
    (forall x1 y1 k1, inside x3 y3 x1 y1 k1 -> Φ (body x1 y1 k1)) -> Φ (nest body x3 y3).
  Proof.
    intros Dx Dy HF Hb. destruct Hpos as ((P1&P2&P3)&(P4&P5&P6)&(P7&P8&P9)). unfold nest.
    apply HF; [done|]. intros k3 V1. apply HF; [done|]. intros x2 V2. apply HF; [done|]. intros y2 V3. apply HF; [done|]. intros k2 V4.
    apply HF; [done|]. intros x1 V5. apply HF; [done|]. intros y1 V6. apply HF; [done|]. intros k1 V7.
    apply Hb. apply (visit_inside x3 y3 k3 x2 y2 k2 x1 y1 k1); assumption.
  Qed.
  Lemma nest_does body us x3 y3 : (LX | x3) -> (LY | y3) ->
    (forall x1 y1 k1, inside x3 y3 x1 y1 k1 -> does (body x1 y1 k1) (us x1 y1 k1)) -> does (nest body x3 y3) (nest_us us x3 y3).
  Proof.
    intros Dx Dy Hb. destruct Hpos as ((P1&P2&P3)&(P4&P5&P6)&(P7&P8&P9)). unfold nest, nest_us.
    apply does_forP; [done|]. intros k3 V1. apply does_forP; [done|]. intros x2 V2. apply does_forP; [done|]. intros y2 V3.
    apply does_forP; [done|]. intros k2 V4.
    apply does_forP; [done|]. intros x1 V5. apply does_forP; [done|]. intros y1 V6. apply does_forP; [done|]. intros k1 V7.
    apply Hb. apply (visit_inside x3 y3 k3 x2 y2 k2 x1 y1 k1); assumption.
  Qed.
  Lemma nest_us_elem us x3 y3 u : (LX | x3) -> (LY | y3) -> u ∈ nest_us us x3 y3 ->
    exists x1 y1 k1, inside x3 y3 x1 y1 k1 /\ u ∈ us x1 y1 k1.
  Proof.
    intros Dx Dy Hu. unfold nest_us in Hu.
    apply elem_of_list_bind in Hu as (k3&Hu&V1). apply elem_of_list_bind in Hu as (x2&Hu&V2). apply elem_of_list_bind in Hu as (y2&Hu&V3).
    apply elem_of_list_bind in Hu as (k2&Hu&V4). apply elem_of_list_bind in Hu as (x1&Hu&V5). apply elem_of_list_bind in Hu as (y1&Hu&V6).
    apply elem_of_list_bind in Hu as (k1&Hu&V7). exists x1, y1, k1. split; [|exact Hu].
    apply (visit_inside x3 y3 k3 x2 y2 k2 x1 y1 k1); assumption.
  Qed.

  (** What a task does to cell (i, j), given what each body does to it. *)
  Context (l : loc) (i j : nat) (us : nat -> nat -> nat -> list (loc * (T -> T))) (cs : nat -> list (T -> T)).
  Lemma nest_contrib x3 y3 : (LX | x3) -> (LY | y3) ->
    (forall x1 y1 k1, inside x3 y3 x1 y1 k1 -> contrib l (us x1 y1 k1) =
      if decide (x1 <= i < x1 + LX) then if decide (y1 <= j < y1 + LY) then cs k1 else [] else []) ->
    contrib l (nest_us us x3 y3) =
    if decide (x3 <= i < x3 + L3_X b) then if decide (y3 <= j < y3 + L3_Y b) then rng 0 K LK ≫= cs else [] else [].
  Proof.
    intros Dx Dy Hc. destruct Hpos as ((P1&P2&P3)&(P4&P5&P6)&(P7&P8&P9)). destruct Hdiv as ((D1&D2&D3)&(D4&D5&D6)). unfold nest_us.
    pose proof (fun k3 x2 y2 k2 x1 y1 k1 => visit_inside x3 y3 k3 x2 y2 k2 x1 y1 k1 Dx Dy) as VI.
    destruct D1 as [a4 A4]. destruct D2 as [a5 A5]. destruct D3 as [a6 A6]. destruct D4 as [a1 A1]. destruct D5 as [a2 A2]. destruct D6 as [a3 A3].
    rewrite contrib_bind.
    rewrite (bind_ext _ (fun k3 => if decide (x3 <= i < x3 + L3_X b) then if decide (y3 <= j < y3 + L3_Y b) then
      rng k3 (k3 + L3_K b) LK ≫= cs else [] else [])).
    { rewrite !bind_if. case_decide; [|done]. case_decide; [|done].
      rewrite <- (Nat.add_0_l (nk * L3_K b)). apply (rng_refine _ _ _ (a3 * a6)); [done|nia|nia]. }
    intros k3 V1. rewrite contrib_bind.
    assert (HX2 : rng x3 (x3 + L3_X b) (L2_X b) = rng x3 (x3 + a1 * L2_X b) (L2_X b)) by (by rewrite A1).
    assert (HY2 : rng y3 (y3 + L3_Y b) (L2_Y b) = rng y3 (y3 + a2 * L2_Y b) (L2_Y b)) by (by rewrite A2).
    assert (HX3 : x3 + L3_X b = x3 + a1 * L2_X b) by lia. assert (HY3 : y3 + L3_Y b = y3 + a2 * L2_Y b) by lia.
    rewrite HX3, HY3. apply sel_range; [done|]. intros q2 Hq2. set (x2 := x3 + q2 * L2_X b).
    assert (V2 : x2 ∈ rng x3 (x3 + L3_X b) (L2_X b)) by (apply elem_of_rng; [done|]; exists q2; split; [done|nia]).
    rewrite contrib_bind.
    transitivity (if decide (y3 <= j < y3 + a2 * L2_Y b) then if decide (x2 <= i < x2 + L2_X b) then rng k3 (k3 + L3_K b) LK ≫= cs else [] else []);
      [|repeat case_decide; done].
    apply sel_range; [done|]. intros q3 Hq3. set (y2 := y3 + q3 * L2_Y b).
    assert (V3 : y2 ∈ rng y3 (y3 + L3_Y b) (L2_Y b)) by (apply elem_of_rng; [done|]; exists q3; split; [done|nia]).
    rewrite contrib_bind.
    rewrite (bind_ext _ (fun k2 => if decide (y2 <= j < y2 + L2_Y b) then if decide (x2 <= i < x2 + L2_X b) then
      rng k2 (k2 + L2_K b) LK ≫= cs else [] else [])).
    { rewrite !bind_if. case_decide; [|done]. case_decide; [|done]. rewrite A3.
      apply (rng_refine _ _ _ a6); [done|nia|done]. }
    intros k2 V4. rewrite contrib_bind.
    assert (HX4 : x2 + L2_X b = x2 + a4 * LX) by lia. assert (HY4 : y2 + L2_Y b = y2 + a5 * LY) by lia.
    rewrite HX4, HY4.
    transitivity (if decide (x2 <= i < x2 + a4 * LX) then if decide (y2 <= j < y2 + a5 * LY) then rng k2 (k2 + L2_K b) LK ≫= cs else [] else []);
      [|repeat case_decide; done].
    apply sel_range; [done|]. intros q5 Hq5. set (x1 := x2 + q5 * LX).
    assert (V5 : x1 ∈ rng x2 (x2 + L2_X b) LX) by (apply elem_of_rng; [done|]; exists q5; split; [done|nia]).
    rewrite contrib_bind.
    transitivity (if decide (y2 <= j < y2 + a5 * LY) then if decide (x1 <= i < x1 + LX) then rng k2 (k2 + L2_K b) LK ≫= cs else [] else []);
      [|repeat case_decide; done].
    apply sel_range; [done|]. intros q6 Hq6. set (y1 := y2 + q6 * LY).
    assert (V6 : y1 ∈ rng y2 (y2 + L2_Y b) LY) by (apply elem_of_rng; [done|]; exists q6; split; [done|nia]).
    rewrite contrib_bind.
    rewrite (bind_ext _ (fun k1 => if decide (y1 <= j < y1 + LY) then if decide (x1 <= i < x1 + LX) then cs k1 else [] else [])).
    { by rewrite !bind_if. }
    intros k1 V7. rewrite Hc by (apply (VI k3 x2 y2 k2); assumption). repeat case_decide; done.
  Qed.

  (** All tasks together. *)
  Definition ltasks : list (nat * nat) := rng 0 X (L3_X b) ≫= fun x => rng 0 Y (L3_Y b) ≫= fun y => [(x, y)].
  Lemma ltasks_elem t : t ∈ ltasks -> exists a c, t = (a * L3_X b, c * L3_Y b) /\ a < nx /\ c < ny.
  Proof.
    destruct Hpos as ((?&?&?)&_). intros (x&(y&->%elem_of_list_singleton&Hy)%elem_of_list_bind&Hx)%elem_of_list_bind.
    apply elem_of_rng0 in Hx as (a&->&Ha); [|done]. apply elem_of_rng0 in Hy as (c&->&Hc); [|done].
    exists a, c. split_and!; [done|nia|nia].
  Qed.
  Lemma ltasks_div t : t ∈ ltasks -> (LX | t.1) /\ (LY | t.2) /\ t.1 + L3_X b <= X /\ t.2 + L3_Y b <= Y.
  Proof.
    intros (a&c&->&Ha&Hc)%ltasks_elem. destruct Hdiv as ((D1&D2&_)&(D4&D5&_)). cbn [fst snd]. split; [|split; [|nia]].
    - apply Nat.divide_mul_r. exact (Nat.divide_trans _ _ _ D1 D4).
    - apply Nat.divide_mul_r. exact (Nat.divide_trans _ _ _ D2 D5).
  Qed.
  Lemma ltasks_NoDup : NoDup ltasks.
  Proof.
    destruct Hpos as ((?&?&?)&_). unfold ltasks.
    assert (forall l l' : list nat, NoDup l -> NoDup l' -> NoDup (l ≫= fun x => l' ≫= fun y => [(x, y)])) as HN.
    { clear. intros l l' Hl Hl'. induction Hl as [|x l Hx Hl IH]; [constructor|]. rewrite bind_cons. apply NoDup_app. split_and!.
      - rewrite bind_ret_fmap. apply NoDup_fmap_2; [intros ? ? [=]; done|done].
      - intros p (y&->%elem_of_list_singleton&Hy)%elem_of_list_bind (x'&(y'&E%elem_of_list_singleton&Hy')%elem_of_list_bind&Hx')%elem_of_list_bind. by simplify_eq.
      - exact IH. }
    apply HN; by apply NoDup_rng.
  Qed.
  Lemma ltasks_contrib : i < X -> j < Y ->
    (forall x1 y1 k1 x3 y3, x3 + L3_X b <= X -> y3 + L3_Y b <= Y -> inside x3 y3 x1 y1 k1 -> contrib l (us x1 y1 k1) =
      if decide (x1 <= i < x1 + LX) then if decide (y1 <= j < y1 + LY) then cs k1 else [] else []) ->
    contrib l (ltasks ≫= fun t => nest_us us t.1 t.2) = rng 0 K LK ≫= cs.
  Proof.
    intros Hi Hj Hc. unfold ltasks. rewrite bind_bind, contrib_bind. pose proof Hpos as ((P1&P2&P3)&_). destruct Hdiv as ((D1&D2&_)&(D4&D5&_)).
    transitivity (if decide (0 <= i < 0 + X) then rng 0 K LK ≫= cs else []); [|rewrite decide_True by lia; done].
    rewrite <- (Nat.add_0_l X) at 1. apply sel_range; [done|]. intros q Hq. rewrite Nat.add_0_l, bind_bind, contrib_bind.
    transitivity (if decide (0 <= j < 0 + Y) then if decide (q * L3_X b <= i < q * L3_X b + L3_X b) then rng 0 K LK ≫= cs else [] else []);
      [|rewrite decide_True by lia; done].
    rewrite <- (Nat.add_0_l Y) at 1. apply sel_range; [done|]. intros q' Hq'. rewrite Nat.add_0_l. cbn [mbind list_bind app fst snd]. rewrite app_nil_r.
    rewrite nest_contrib.
    - repeat case_decide; done.
    - apply Nat.divide_mul_r. exact (Nat.divide_trans _ _ _ D1 D4).
    - apply Nat.divide_mul_r. exact (Nat.divide_trans _ _ _ D2 D5).
    - intros x1 y1 k1 Hin. apply (Hc x1 y1 k1 (q * L3_X b) (q' * L3_Y b)); [nia|nia|exact Hin].
  Qed.
End Levels.
