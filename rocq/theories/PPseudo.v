(** Proofs about static_improved::matrix_multiply and pseudodynamic
    (src/variants/static_improved.cpp:197-275, src/variants/pseudodynamic.cpp). *)
From Verif Require Import Tools MSchedule SpecSched PKernels PRecursive PSchedule.

Lemma hits_two i j ws k k' w w' :
  ws !! k = Some w -> ws !! k' = Some w' -> k <> k' -> has w i j -> has w' i j -> 2 <= hits i j ws.
Proof.
  intros Hk Hk' Hne Hw Hw'.
  assert (Hp : ws ≡ₚ w :: delete k ws) by (by apply delete_Permutation).
  assert (w' ∈ delete k ws) as Hin.
  { apply elem_of_list_lookup. destruct (decide (k' < k)).
    - exists k'. by rewrite lookup_delete_lt.
    - exists (k' - 1). rewrite lookup_delete_ge by lia. by replace (S (k' - 1)) with k' by lia. }
  apply elem_of_Permutation in Hin as [rest Hr].
  rewrite (hits_perm _ _ _ _ Hp), hits_cons, (hits_perm _ _ _ _ Hr), hits_cons.
  rewrite !decide_True by done. lia.
Qed.
Lemma hits_pos i j ws : 0 < hits i j ws -> exists k w, ws !! k = Some w /\ has w i j.
Proof.
  induction ws as [|w ws IH]; [simpl; rewrite hits_nil; lia|]. rewrite hits_cons. case_decide as Hd.
  - intros _. by exists 0, w.
  - intros (k&w'&?&?)%IH. by exists (S k), w'.
Qed.
Lemma hits_zero i j ws k w : hits i j ws = 0 -> ws !! k = Some w -> ~ has w i j.
Proof.
  intros Hz Hk Hh. rewrite (hits_perm _ _ _ _ (delete_Permutation ws k w Hk)), hits_cons in Hz.
  rewrite decide_True in Hz by done. lia.
Qed.

Definition tasks (ws : list work) : list (nat * work) := imap (fun k w => (k, w)) ws.
Lemma elem_of_tasks ws k w : (k, w) ∈ tasks ws <-> ws !! k = Some w.
Proof.
  unfold tasks. rewrite elem_of_lookup_imap. split; [intros (i&v&[= -> ->]&?); done|]. intros. by exists k, w.
Qed.
Lemma NoDup_tasks ws : NoDup (tasks ws).
Proof.
  apply NoDup_alt. intros i j [k w]. unfold tasks. rewrite !list_lookup_imap.
  destruct (ws !! i), (ws !! j); simpl; try done. intros [= -> ->] [= -> ->]. done.
Qed.

Section PPseudo.
  Context {T : Type} `{NumOps T}.
  Context (N : nat) (A B : list T) (transposed : bool) (block_input block_result : nat).
  Local Notation task := (package_task N A B transposed block_input block_result).

  (** Cells of C that belong to package [w]. *)
  Definition cw (w : work) (l : loc) : Prop :=
    exists i j, i < Z.to_nat (wN w) /\ j < Z.to_nat (wN w) /\
      l = ([0], (Z.to_nat (wx w) + i) * N + (Z.to_nat (wy w) + j)).
  Definition pw (path : arr) (w : work) (l : loc) : Prop := sub path l \/ cw w l.

  Lemma insert_acc (R : loc -> Prop) (S : list T) w :
    acc_in R (cw w) (insert_submatrix N [0] S (Z.to_nat (wx w)) (Z.to_nat (wy w)) (Z.to_nat (wN w))).
  Proof.
    apply acc_in_forS. intros i _ Hi _. apply acc_in_forS. intros j _ Hj _.
    apply acc_in_bind; [apply acc_in_vget|]. intros v. apply acc_in_wr. exists i, j. split_and!; [lia|lia|done].
  Qed.
  Lemma insert_drf (S : list T) x y n : drf (insert_submatrix N [0] S x y n).
  Proof.
    apply drf_forS. intros i _ _ _. apply drf_forS. intros j _ _ _.
    apply drf_bind; [apply drf_vget|]. intros v. apply drf_wr.
  Qed.
  Lemma task_acc path w : acc_in (fun _ => False) (pw path w) (task [0] path w).
  Proof.
    apply acc_in_bind.
    - eapply acc_in_mono; [| |apply acc_in_bind; [apply dist_acc|]]; [done|by left|].
      intros _. apply acc_in_vread. intros i. right. apply sub_self.
    - intros S. eapply acc_in_mono; [| |apply insert_acc]; [intros l Hl; exact (or_introl Hl)|by right].
  Qed.
  Lemma task_drf path w : drf (task [0] path w).
  Proof. apply drf_bind; [apply distribute_drf|]. intros S. apply insert_drf. Qed.

  Lemma pw_disj k k' r w w' ws l :
    Forall (inside (Z.of_nat N)) ws -> (forall i j, hits i j ws <= 1) ->
    ws !! k = Some w -> ws !! k' = Some w' -> k <> k' ->
    pw [k; r] w l -> pw [k'; r] w' l -> False.
  Proof.
    intros Hin Hh Hk Hk' Hne [Hs|Hc] [Hs'|Hc'].
    - exact (sub_disj k k' [r] l Hne Hs Hs').
    - destruct Hc' as (i&j&_&_&->). destruct Hs as [s Hs]. simpl in Hs.
      apply (f_equal length) in Hs. rewrite app_length in Hs. simpl in Hs. lia.
    - destruct Hc as (i&j&_&_&->). destruct Hs' as [s Hs]. simpl in Hs.
      apply (f_equal length) in Hs. rewrite app_length in Hs. simpl in Hs. lia.
    - destruct Hc as (i&j&Hi&Hj&->). destruct Hc' as (i'&j'&Hi'&Hj'&[= He]).
      rewrite Forall_forall in Hin.
      pose proof (Hin w (elem_of_list_lookup_2 _ _ _ Hk)) as (?&?&?&?&?).
      pose proof (Hin w' (elem_of_list_lookup_2 _ _ _ Hk')) as (?&?&?&?&?).
      apply mixed_inj in He as [He1 He2]; [|lia|lia].
      pose proof (hits_two (Z.of_nat (Z.to_nat (wx w) + i)) (Z.of_nat (Z.to_nat (wy w) + j)) ws k k' w w' Hk Hk' Hne) as Ht.
      specialize (Hh (Z.of_nat (Z.to_nat (wx w) + i)) (Z.of_nat (Z.to_nat (wy w) + j))).
      unfold has in Ht. lia.
  Qed.

  Definition round (ws : list work) (r : nat) : prog T unit :=
    parL (tasks ws) (fun kw => task [0] [kw.1; S r] kw.2).

  Lemma round_drf ws r :
    Forall (inside (Z.of_nat N)) ws -> (forall i j, hits i j ws <= 1) -> drf (round ws r).
  Proof.
    intros Hin Hh. apply (drf_parL _ _ (fun _ _ => False) (fun kw => pw [kw.1; S r] kw.2)).
    - apply NoDup_tasks.
    - intros kw _. apply task_drf.
    - intros kw _. apply task_acc.
    - intros [k w] [k' w'] l Hk%elem_of_tasks Hk'%elem_of_tasks Hne Hl [[]|Hl'].
      eapply (pw_disj k k'); [done|done|done|done| |exact Hl|exact Hl'].
      intros ->. apply Hne. rewrite Hk in Hk'. by injection Hk' as ->.
  Qed.

  Definition body (ws : list work) (reps : nat) : prog T (list T) :=
    valloc [0] (N * N) nzero ;;; forP 0 reps 1 (fun r => round ws r) ;;; vread [0] (N * N).

  Lemma body_drf ws reps :
    Forall (inside (Z.of_nat N)) ws -> (forall i j, hits i j ws <= 1) -> drf (body ws reps).
  Proof.
    intros Hin Hh. apply drf_bind; [apply drf_valloc|]. intros _. apply drf_bind; [|intros _; apply drf_vread].
    apply drf_forS. intros r _ _ _. by apply round_drf.
  Qed.

  (** Entries outside all packages stay zero. *)
  Lemma body_lost ws reps i j C m :
    Forall (inside (Z.of_nat N)) ws -> i < N -> j < N -> hits (Z.of_nat i) (Z.of_nat j) ws = 0 ->
    run (body ws reps) ∅ = Ok (C, m) -> C !! (i * N + j) = Some nzero.
  Proof.
    intros Hin Hi Hj Hz. unfold body. rewrite run_bind.
    destruct (run_valloc [0] (N * N) (nzero : T) ∅) as (m1&->&Hz1&_). rewrite run_bind.
    destruct (run (forP 0 reps 1 _) m1) as [[u m2]|] eqn:E; [|done].
    intros (_&Hl&Hc)%run_vread_inv.
    assert (Hp : i * N + j < N * N) by (by apply mixed_lt).
    assert (m2 !! (([0], i * N + j) : loc) = Some (VD nzero)) as Hm2.
    { rewrite <- (Hz1 (i * N + j)) by done.
      eapply (run_unchanged (fun _ => False) (fun l => exists k r w, ws !! k = Some w /\ pw [k; S r] w l)); [|exact E|].
      - apply acc_in_forS. intros r _ _ _. apply acc_in_parL. intros [k w] Hk%elem_of_tasks.
        eapply acc_in_mono; [| |apply task_acc]; [done|]. intros l Hl'. by exists k, r, w.
      - intros (k&r&w&Hk&[[s Hs]|(i'&j'&Hi'&Hj'&[= He])]).
        + simpl in Hs. apply (f_equal length) in Hs. rewrite app_length in Hs. simpl in Hs. lia.
        + rewrite Forall_forall in Hin. pose proof (Hin w (elem_of_list_lookup_2 _ _ _ Hk)) as (?&?&?&?&?).
          apply mixed_inj in He as [-> ->]; [|lia|lia].
          eapply (hits_zero _ _ _ _ _ Hz Hk). unfold has. lia. }
    specialize (Hc _ Hp). pose proof (eq_trans (eq_sym Hm2) Hc) as He.
    destruct (C !! (i * N + j)); simpl in He; by simplify_eq.
  Qed.

  (** ** Correctness *)
  Definition ins_us (S : list T) (x y n : nat) : list (loc * (T -> T)) :=
    seq 0 n ≫= fun i => seq 0 n ≫= fun j => [(([0], (x + i) * N + (y + j)) : loc, fun _ => ent n S i j)].

  Lemma insert_does (S : list T) x y n : length S = n * n ->
    does (insert_submatrix N [0] S x y n) (ins_us S x y n).
  Proof.
    intros HS. unfold insert_submatrix.
    assert (Hr : rng 0 n 1 = seq 0 n) by (by rewrite rng_1, Nat.sub_0_r).
    unfold ins_us. rewrite <- Hr. apply does_forP; [lia|]. intros i Hi. apply does_forP; [lia|]. intros j Hj.
    apply rng_bounds in Hi, Hj. rewrite (vget_lookup _ _ (ent n S i j)) by (apply ent_lookup_sq; [done|lia|lia]).
    apply does_wr.
  Qed.
  Lemma contrib_ins (S : list T) x y n i j : i < n -> j < n -> y + n <= N ->
    contrib (([0], (x + i) * N + (y + j)) : loc) (ins_us S x y n) = [fun _ => ent n S i j].
  Proof.
    intros Hi Hj Hy. unfold ins_us. rewrite contrib_bind.
    rewrite (bind_select _ _ i); [|apply NoDup_seq|apply elem_of_seq; lia|].
    - rewrite contrib_bind. rewrite (bind_select _ _ j); [|apply NoDup_seq|apply elem_of_seq; lia|].
      + apply contrib_single_eq.
      + intros j' Hj'%elem_of_seq Hne. apply contrib_single_ne. intros [= He]. lia.
    - intros i' Hi'%elem_of_seq Hne. rewrite contrib_bind. apply bind_nil. intros j' Hj'%elem_of_seq.
      apply contrib_single_ne. intros [= He]. apply mixed_inj in He; [|lia|lia]. lia.
  Qed.

  Context (f : nat -> nat -> T).
  (** The package can be computed by the recursive component and its entries
      are those of [f]. *)
  Definition pkg_ok (w : work) : Prop := exists ms d,
    Z.to_nat (wN w) = ms * 2 ^ d /\ ms <= block_result /\ (d = 0 \/ block_result < 2 * ms) /\
    leaf_ok transposed block_input ms N /\
    forall i j, i < N -> j < N -> has w (Z.of_nat i) (Z.of_nat j) -> leaf_entry transposed block_input ms N A B i j = f i j.

  Context (HA : length A = N * N) (HB : length B = N * N).

  Definition Cpresent (m : mem T) : Prop := forall p, p < N * N -> exists t, m !! (([0], p) : loc) = Some (VD t).
  Definition Cdone (w : work) (m : mem T) : Prop := forall i j, has w (Z.of_nat i) (Z.of_nat j) ->
    m !! (([0], i * N + j) : loc) = Some (VD (f i j)).

  Lemma task_run path w m : length path = 2 -> inside (Z.of_nat N) w -> pkg_ok w -> Cpresent m ->
    exists m', run (task [0] path w) m = Ok (tt, m') /\ Cpresent m' /\ Cdone w m'.
  Proof.
    intros Hpath (?&?&?&?&?) (ms&d&Hn&Hms&Hd&Hok&Hf) Hm.
    destruct (distribute_correct N A B transposed block_input block_result HA HB ms d path
                (Z.to_nat (wx w)) (Z.to_nat (wy w)) Hms Hd Hok) as (C&HC&Hr); [lia|lia|].
    rewrite <- Hn in HC, Hr. destruct (Hr m) as (m1&Hr1).
    assert (Hm1 : Cpresent m1).
    { intros p Hp. destruct (Hm p Hp) as [t Ht]. exists t. rewrite <- Ht.
      eapply (run_unchanged (fun _ => False) (sub path)); [|exact Hr1|].
      - apply acc_in_bind; [apply dist_acc|]. intros _. apply acc_in_vread. intros i. right. apply sub_self.
      - intros [s Hs]. simpl in Hs. apply (f_equal length) in Hs. rewrite app_length, Hpath in Hs. simpl in Hs. lia. }
    unfold package_task. rewrite run_bind, Hr1.
    set (n := Z.to_nat (wN w)) in *. set (x := Z.to_nat (wx w)) in *. set (y := Z.to_nat (wy w)) in *.
    destruct HC as [HCl HC].
    rewrite (insert_does C x y n HCl m1).
    - eexists. split; [reflexivity|]. split.
      + intros p Hp. destruct (Hm1 p Hp) as [t Ht]. rewrite applyM_lookup. exists (fold_upd (contrib (([0], p) : loc) (ins_us C x y n)) t).
        by rewrite Ht.
      + intros i j [Hi Hj]. rewrite applyM_lookup.
        replace i with (x + (i - x)) by lia. replace j with (y + (j - y)) by lia.
        rewrite contrib_ins by lia.
        destruct (Hm1 ((x + (i - x)) * N + (y + (j - y)))) as [t ->]; [apply mixed_lt; lia|].
        simpl. do 2 f_equal. rewrite (ent_eq _ _ _ _ _ (HC (i - x) (j - y) ltac:(lia) ltac:(lia))).
        apply Hf; [lia|lia|split; lia].
    - intros u Hu. unfold ins_us in Hu. apply elem_of_list_bind in Hu as (i&Hu&Hi%elem_of_seq).
      apply elem_of_list_bind in Hu as (j&Hu&Hj%elem_of_seq). apply elem_of_list_singleton in Hu as ->. simpl.
      apply Hm1. apply mixed_lt; lia.
  Qed.

  Lemma round_run ws r m :
    Forall (inside (Z.of_nat N)) ws -> (forall i j, hits i j ws <= 1) -> Forall pkg_ok ws -> Cpresent m ->
    exists m', run (round ws r) m = Ok (tt, m') /\ Cpresent m' /\ forall w, w ∈ ws -> Cdone w m'.
  Proof.
    intros Hin Hh Hpk Hm. pose proof Hin as Hin'. rewrite Forall_forall in Hin', Hpk.
    destruct (run_parL_sep (tasks ws) (fun kw => task [0] [kw.1; S r] kw.2) Cpresent (fun kw => Cdone kw.2) m) as (m'&Hr&HI&HQ).
    - apply NoDup_tasks.
    - done.
    - intros [k w] m0 Hk%elem_of_tasks Hm0. apply elem_of_list_lookup_2 in Hk. apply task_run; auto.
    - intros [k w] [k' w'] m0 m1 Hk%elem_of_tasks Hk'%elem_of_tasks Hne _ HQ Hr i j Hij. rewrite <- (HQ i j Hij).
      eapply run_unchanged; [apply task_acc|exact Hr|]. intros Hpw.
      eapply (pw_disj k' k (S r) w' w ws); [done|done|done|done| |exact Hpw|].
      + intros ->. apply Hne. rewrite Hk in Hk'. by injection Hk' as ->.
      + right. pose proof (Hin' w (elem_of_list_lookup_2 _ _ _ Hk)) as (?&?&?&?&?). destruct Hij. simpl in *.
        exists (i - Z.to_nat (wx w)), (j - Z.to_nat (wy w)). split_and!; [lia|lia|]. f_equal. f_equal; [f_equal; lia|lia].
    - exists m'. split; [done|]. split; [done|]. intros w [k Hk]%elem_of_list_lookup.
      apply (HQ (k, w)). by apply elem_of_tasks.
  Qed.

  Lemma body_run ws reps :
    Forall (inside (Z.of_nat N)) ws -> (forall i j, hits i j ws <= 1) -> Forall pkg_ok ws ->
    (forall i j, i < N -> j < N -> 0 < hits (Z.of_nat i) (Z.of_nat j) ws) ->
    exists C m, run (body ws reps) ∅ = Ok (C, m) /\ (if decide (reps = 0) then is_zero N C else is_matrix N f C).
  Proof.
    intros Hin Hh Hpk Hcov. unfold body. rewrite run_bind.
    destruct (run_valloc [0] (N * N) (nzero : T) ∅) as (m1&->&Hz1&_). rewrite run_bind.
    assert (Hm1 : Cpresent m1) by (intros p Hp; exists nzero; by apply Hz1).
    assert (forall rs m, Cpresent m -> exists m', run (foldP rs (fun r _ => round ws r) tt) m = Ok (tt, m') /\
       Cpresent m' /\ (if decide (length rs = 0) then m' = m else forall w, w ∈ ws -> Cdone w m')) as Hl.
    { induction rs as [|r rs IH]; intros m Hm; [by exists m|].
      destruct (round_run ws r m Hin Hh Hpk Hm) as (m2&Hr2&Hp2&Hd2). destruct (IH m2 Hp2) as (m3&Hr3&Hp3&Hd3).
      exists m3. cbn [foldP]. rewrite run_bind, Hr2. split; [done|]. split; [done|]. simpl.
      destruct rs; simpl in *; [by subst|done]. }
    unfold forP. rewrite forS_step by lia. rewrite rng_1, Nat.sub_0_r.
    destruct (Hl (seq 0 reps) m1 Hm1) as (m2&->&Hp2&Hd2). rewrite seq_length in Hd2.
    case_decide as Hreps.
    - exists (replicate (N * N) nzero), m2. split; [|apply zeros_is_zero].
      apply run_vread; [by rewrite replicate_length|]. intros i Hi. rewrite Hd2, Hz1 by done. by rewrite lookup_replicate_2.
    - destruct (matrix_of_cells N f (fun p => m2 !! (([0], p) : loc))) as (C&HC&Hcells).
      { intros i j Hi Hj. destruct (hits_pos _ _ _ (Hcov i j Hi Hj)) as (k&w&Hk&Hw).
        apply (Hd2 w); [by eapply elem_of_list_lookup_2|done]. }
      exists C, m2. split; [|done]. apply run_vread; [by destruct HC|done].
  Qed.
End PPseudo.

Section Always.
  Context {T : Type} `{NumOps T}.
  Context (N : nat) (A B : list T) (transposed : bool) (bi br : nat).
  Context (mws maxd : Z) (rel : Z -> Z -> bool) (G reps : nat).
  Local Notation ps := (pseudodynamic_matrix_multiply N A B transposed br bi mws maxd rel G reps).

  Lemma ps_schedule : (Z.of_nat N * Z.of_nat N < 2 ^ 62)%Z -> (0 <= mws)%Z -> 0 < G ->
    exists L s, L = (if 1 <? G then G - 1 else G) /\ 0 < L /\
      create_schedule_state (Z.of_nat N) mws maxd rel (S (N * N * N)) L = Ok s /\
      reach (Z.of_nat N) mws maxd rel L s /\ inv (Z.of_nat N) mws s /\
      ps = body N A B transposed bi br (concat (all_work s)) reps.
  Proof.
    intros HN Hm HG. set (L := if 1 <? G then G - 1 else G).
    assert (HL : 0 < L). { unfold L. destruct (Nat.ltb_spec 1 G); lia. }
    destruct (schedule_ok (Z.of_nat N) mws maxd rel ltac:(lia) HN Hm (S (N * N * N)) L HL ltac:(lia)) as (s&Hs).
    destruct (state_reach _ _ _ _ _ _ _ Hs) as [Hr _].
    exists L, s. split_and!; try done. { by eapply reach_inv; [lia|..]. }
    unfold pseudodynamic_matrix_multiply, static_improved_matrix_multiply. fold L.
    unfold create_schedule. rewrite Hs. done.
  Qed.

  Lemma ps_drf : (Z.of_nat N * Z.of_nat N < 2 ^ 62)%Z -> (0 <= mws)%Z -> 0 < G -> drf ps.
  Proof.
    intros HN Hm HG. destruct (ps_schedule HN Hm HG) as (L&s&_&_&_&_&Hi&->).
    apply body_drf; [apply (inv_in _ _ _ Hi)|apply (inv_hits _ _ _ Hi)].
  Qed.

  Lemma ps_always f : (Z.of_nat N * Z.of_nat N < 2 ^ 62)%Z -> (0 <= mws)%Z -> 0 < G ->
    length A = N * N -> length B = N * N ->
    even_chain (Z.of_nat N) mws ->
    (forall n, size_of (Z.of_nat N) mws n -> exists ms d, Z.to_nat n = ms * 2 ^ d /\ ms <= br /\ (d = 0 \/ br < 2 * ms) /\
      leaf_ok transposed bi ms N /\ forall i j, i < N -> j < N -> leaf_entry transposed bi ms N A B i j = f i j) ->
    always ps (if decide (reps = 0) then is_zero N else is_matrix N f).
  Proof.
    intros HN Hm HG HA HB Hev Hsz. destruct (ps_schedule HN Hm HG) as (L&s&_&_&_&Hr&Hi&->).
    destruct (reach_even (Z.of_nat N) mws maxd rel ltac:(lia) HN Hm _ _ Hev Hr) as [Hh _].
    destruct (body_run N A B transposed bi br f HA HB (concat (all_work s)) reps) as (C&m&HC&Hm').
    - apply (inv_in _ _ _ Hi).
    - apply (inv_hits _ _ _ Hi).
    - apply Forall_forall. intros w Hw. destruct (Hsz _ (inv_size _ _ _ Hi _ Hw)) as (ms&d&H1&H2&H3&H4&H5).
      exists ms, d. split_and!; try done. intros i j Hi' Hj _. by apply H5.
    - intros i j Hi' Hj. rewrite Hh, decide_True by lia. lia.
    - eapply always_intro; [|exact HC|].
      + apply body_drf; [apply (inv_in _ _ _ Hi)|apply (inv_hits _ _ _ Hi)].
      + by destruct (decide (reps = 0)).
  Qed.

  Lemma ps_exact `{!Exact T} : (Z.of_nat N * Z.of_nat N < 2 ^ 62)%Z -> (0 <= mws)%Z -> 0 < G -> 0 < reps ->
    length A = N * N -> length B = N * N ->
    even_chain (Z.of_nat N) mws ->
    (forall n, size_of (Z.of_nat N) mws n -> rec_ok transposed bi br N (Z.to_nat n)) ->
    always ps (is_matrix N (pentry transposed N A B)).
  Proof.
    intros HN Hm HG Hreps HA HB Hev Hsz.
    pose proof (ps_always (pentry transposed N A B) HN Hm HG HA HB Hev) as Hp.
    rewrite decide_False in Hp by lia. apply Hp. intros n Hn. destruct (Hsz n Hn) as (ms&d&H1&H2&H3&H4).
    exists ms, d. split_and!; try done. intros i j Hi Hj. by apply leaf_entry_exact.
  Qed.

  Lemma ps_lost i j C : (Z.of_nat N * Z.of_nat N < 2 ^ 62)%Z -> (0 <= mws)%Z -> 0 < G ->
    i < N -> j < N ->
    (forall s, create_schedule_state (Z.of_nat N) mws maxd rel (S (N * N * N)) (if 1 <? G then G - 1 else G) = Ok s ->
      hits (Z.of_nat i) (Z.of_nat j) (concat (all_work s)) = 0) ->
    may_return ps C -> C !! (i * N + j) = Some nzero.
  Proof.
    intros HN Hm HG Hi Hj Hz (m&Hs).
    pose proof (ps_drf HN Hm HG) as Hd. destruct (ps_schedule HN Hm HG) as (L&s&HL&_&Hst&_&Hinv&He).
    rewrite He in *. subst L. specialize (Hz s Hst). apply drf_return in Hs; [|done].
    eapply body_lost; [apply (inv_in _ _ _ Hinv)|done|done|exact Hz|exact Hs].
  Qed.
  Lemma ps_odd_lost C : (Z.of_nat N * Z.of_nat N < 2 ^ 62)%Z -> (0 <= mws < Z.of_nat N)%Z -> 3 <= G ->
    Nat.odd N = true -> (maxd <= Z.of_nat N * Z.of_nat N)%Z ->
    may_return ps C -> C !! ((N - 1) * N + (N - 1)) = Some nzero.
  Proof.
    intros HN Hm HG Hodd Hmaxd Hr. assert (0 < N) by (destruct N; [done|lia]).
    eapply ps_lost; [done|lia|lia|lia|lia| |exact Hr].
    intros s Hs. replace (Z.of_nat (N - 1)) with (Z.of_nat N - 1)%Z by lia.
    destruct (Nat.ltb_spec 1 G); [|lia].
    eapply (odd_lost (Z.of_nat N) mws maxd rel); [lia|done|lia| | |lia|done|exact Hs]; [lia|].
    apply Z.odd_spec. apply Nat.odd_spec in Hodd as [q ->]. exists (Z.of_nat q). lia.
  Qed.
End Always.

(** ** Powers of two *)
Lemma pow2_div e k : (0 <= k)%Z -> (k <= Z.of_nat e)%Z -> (2 ^ Z.of_nat e / 2 ^ k = 2 ^ (Z.of_nat e - k))%Z.
Proof. intros. rewrite Z.pow_sub_r by lia. done. Qed.
Lemma size_of_pow2 e mws n : (1 <= mws)%Z -> size_of (2 ^ Z.of_nat e) mws n ->
  exists l, l <= e /\ n = (2 ^ Z.of_nat l)%Z /\ ((mws / 2 < n)%Z \/ l = e).
Proof.
  intros Hm (k&Hk&->&Hc).
  assert (Hke : (k <= Z.of_nat e)%Z).
  { destruct Hc as [->|Hc]; [lia|]. destruct (decide (k <= Z.of_nat e)%Z); [done|].
    assert (2 ^ Z.of_nat e / 2 ^ (k - 1) <= 1)%Z; [|lia].
    apply Z.div_le_upper_bound; [apply Z.pow_pos_nonneg; lia|].
    rewrite Z.mul_1_r. apply Z.pow_le_mono_r; lia. }
  exists (Z.to_nat (Z.of_nat e - k)). split; [lia|]. rewrite Z2Nat.id by lia. split; [by apply pow2_div|].
  destruct Hc as [->|Hc]; [right; lia|]. destruct (decide (k = 0)%Z) as [->|]; [right; lia|]. left.
  rewrite pow2_div in Hc by lia. rewrite pow2_div by lia.
  replace (Z.of_nat e - (k - 1))%Z with (Z.of_nat e - k + 1)%Z in Hc by lia.
  rewrite Z.pow_add_r in Hc by lia. apply Z.div_lt_upper_bound; lia.
Qed.
Lemma even_chain_pow2 e mws : (1 <= mws)%Z -> even_chain (2 ^ Z.of_nat e) mws.
Proof.
  intros Hm n (l&Hl&->&_)%size_of_pow2 Hlt; [|done]. destruct l as [|l]; [simpl in Hlt; lia|].
  exists (2 ^ Z.of_nat l)%Z. rewrite Nat2Z.inj_succ, Z.pow_succ_r by lia. lia.
Qed.
Lemma to_nat_pow2 l : Z.to_nat (2 ^ Z.of_nat l) = 2 ^ l.
Proof. rewrite <- (Nat2Z.id (2 ^ l)). by rewrite Nat2Z.inj_pow. Qed.
Lemma divide4_pow2 l : 4 <= 2 ^ l -> (4 | 2 ^ l).
Proof.
  intros Hl. destruct l as [|[|l]]; [simpl in Hl; lia|simpl in Hl; lia|]. exists (2 ^ l). simpl. lia.
Qed.
(** [ms] with the recursion of a block of size 2^l *)
Lemma rec_pow2 l br bi transposed N : 1 <= br -> (bi = 0 \/ (bi | N)) ->
  exists ms d, 2 ^ l = ms * 2 ^ d /\ ms <= br /\ (d = 0 \/ br < 2 * ms) /\ leaf_ok transposed bi ms N /\
    (ms = 2 ^ l \/ br < 2 * ms) /\ exists l', ms = 2 ^ l'.
Proof.
  intros Hbr Hbi.
  assert (Hleaf : forall l', leaf_ok transposed bi (2 ^ l') N).
  { intros l' _ Hb H4. split; [by apply divide4_pow2|]. destruct Hbi as [->|Hbi]; [lia|exact Hbi]. }
  destruct (decide (2 ^ l <= br)) as [Hle|Hgt].
  - exists (2 ^ l), 0. split_and!; [simpl; lia|done|by left|apply Hleaf|by left|by exists l].
  - destruct (Nat.log2_spec br ltac:(lia)) as [H1 H2]. set (lg := Nat.log2 br) in *. simpl in H2.
    assert (lg < l). { apply (Nat.pow_lt_mono_r_iff 2); [lia|]. lia. }
    exists (2 ^ lg), (l - lg). split_and!; [|done|right; lia|apply Hleaf|right; lia|by exists lg].
    rewrite <- Nat.pow_add_r. f_equal. lia.
Qed.

Section Pow2.
  Context {T : Type} `{NumOps T}.
  Context (e : nat) (A B : list T) (transposed : bool) (bi br : nat).
  Context (mws maxd : Z) (rel : Z -> Z -> bool) (G reps : nat).
  Local Notation N := (2 ^ e).
  Local Notation ps := (pseudodynamic_matrix_multiply N A B transposed br bi mws maxd rel G reps).

  Lemma ps_pow2_exact `{!Exact T} : 2 * e < 62 -> (1 <= mws)%Z -> 0 < G -> 0 < reps ->
    length A = N * N -> length B = N * N -> 1 <= br -> bi = 0 \/ (bi | N) ->
    always ps (is_matrix N (pentry transposed N A B)).
  Proof.
    intros He Hm HG Hreps HA HB Hbr Hbi. apply ps_exact; try done.
    - rewrite Nat2Z.inj_pow. change (Z.of_nat 2) with 2%Z. rewrite <- Z.pow_add_r by lia. apply Z.pow_lt_mono_r; lia.
    - lia.
    - rewrite Nat2Z.inj_pow. by apply even_chain_pow2.
    - rewrite Nat2Z.inj_pow. intros n (l&Hl&->&_)%size_of_pow2; [|done].
      change (Z.of_nat 2) with 2%Z. rewrite to_nat_pow2.
      destruct (rec_pow2 l br bi transposed N Hbr Hbi) as (ms&d&?&?&?&?&_). by exists ms, d.
  Qed.

  Lemma ps_pow2_order : 2 <= e -> 2 * e < 62 -> (4 <= mws)%Z -> 0 < G -> 0 < reps ->
    length A = N * N -> length B = N * N -> 4 <= br -> bi = 0 \/ (bi | N) ->
    always ps (is_matrix N (leaf_entry transposed bi 4 N A B)).
  Proof.
    intros He2 He Hm HG Hreps HA HB Hbr Hbi.
    pose proof (ps_always N A B transposed bi br mws maxd rel G reps (leaf_entry transposed bi 4 N A B)) as Hp.
    rewrite decide_False in Hp by lia. apply Hp; try done.
    - rewrite Nat2Z.inj_pow. change (Z.of_nat 2) with 2%Z. rewrite <- Z.pow_add_r by lia. apply Z.pow_lt_mono_r; lia.
    - lia.
    - rewrite Nat2Z.inj_pow. apply even_chain_pow2. lia.
    - rewrite Nat2Z.inj_pow. intros n (l&Hl&->&Hbig)%size_of_pow2; [|lia].
      change (Z.of_nat 2) with 2%Z in *. rewrite to_nat_pow2.
      destruct (rec_pow2 l br bi transposed N ltac:(lia) Hbi) as (ms&d&?&?&?&?&Hms&(l'&Hl')). exists ms, d.
      split_and!; try done. intros i j _ _. unfold leaf_entry.
      assert (4 <= ms); [|by replace (ms <? 4) with false by (symmetry; apply Nat.ltb_ge; lia)].
      assert (Hge : 2 <= l -> 2 ^ 2 <= 2 ^ l) by (intros; apply Nat.pow_le_mono_r; lia).
      change (2 ^ 2) with 4 in Hge.
      destruct Hms as [->|Hms].
      + destruct Hbig as [Hb| ->]; [|by apply Hge]. apply Hge. destruct l as [|[|l]]; [| |lia].
        * exfalso. simpl in Hb. assert (2 <= mws / 2)%Z by (apply Z.div_le_lower_bound; lia). lia.
        * exfalso. simpl in Hb. assert (2 <= mws / 2)%Z by (apply Z.div_le_lower_bound; lia). lia.
      + subst ms. destruct l' as [|[|l']]; [simpl in Hms; lia|simpl in Hms; lia|].
        assert (2 ^ 2 <= 2 ^ S (S l')) by (apply Nat.pow_le_mono_r; lia). simpl in *. lia.
  Qed.
End Pow2.

Lemma schedule_positions (N mws maxd : Z) rel : (0 <= N)%Z -> (N * N < 2 ^ 62)%Z -> (0 <= mws)%Z ->
  forall fuel L all k k' w w' i j,
  create_schedule N mws maxd rel fuel L = Ok all ->
  concat all !! k = Some w -> concat all !! k' = Some w' -> has w i j -> has w' i j -> k = k'.
Proof.
  intros HN HN2 Hm fuel L all k k' w w' i j Hs Hk Hk' Hw Hw'. destruct (decide (k = k')) as [|Hne]; [done|].
  destruct (schedule_disjoint N mws maxd rel HN HN2 Hm fuel L all Hs) as [_ Hh].
  pose proof (hits_two i j _ k k' w w' Hk Hk' Hne Hw Hw'). specialize (Hh i j). lia.
Qed.
Lemma schedule_pow2 e mws maxd rel L fuel all :
  2 * e < 62 -> (1 <= mws)%Z ->
  create_schedule (2 ^ Z.of_nat e) mws maxd rel fuel L = Ok all ->
  forall i j, hits i j (concat all) =
    (if decide (0 <= i < 2 ^ Z.of_nat e /\ 0 <= j < 2 ^ Z.of_nat e)%Z then 1 else 0).
Proof.
  intros He Hm. apply schedule_cover; [apply Z.pow_nonneg; lia| |lia|by apply even_chain_pow2].
  rewrite <- Z.pow_add_r by lia. apply Z.pow_lt_mono_r; lia.
Qed.

Lemma always_unique {T A} (p : prog T A) (Q : A -> Prop) (a : A) :
  always p Q -> Q a -> (forall b, Q b -> b = a) -> always p (fun x => x = a).
Proof. intros Hp Ha Hu. eapply must_mono; [|exact Hp]. intros b m Hb. by apply Hu. Qed.

Lemma is_matrix_exists {T} `{NumOps T} N (f : nat -> nat -> T) : exists C, is_matrix N f C.
Proof.
  exists (applyL (grid_us N N (fun i j _ => f i j)) (replicate (N * N) nzero)).
  apply grid_matrix. by rewrite replicate_length.
Qed.

Lemma ps_independent {T : Type} `{NumOps T} e (A B : list T) transposed bi br mws maxd rel G reps mws' maxd' rel' G' reps' :
  2 <= e -> 2 * e < 62 -> (4 <= mws)%Z -> (4 <= mws')%Z -> 0 < G -> 0 < G' -> 0 < reps -> 0 < reps' ->
  length A = 2 ^ e * 2 ^ e -> length B = 2 ^ e * 2 ^ e -> 4 <= br -> bi = 0 \/ (bi | 2 ^ e) ->
  exists C, always (pseudodynamic_matrix_multiply (2 ^ e) A B transposed br bi mws maxd rel G reps) (fun C' => C' = C) /\
            always (pseudodynamic_matrix_multiply (2 ^ e) A B transposed br bi mws' maxd' rel' G' reps') (fun C' => C' = C).
Proof.
  intros. destruct (is_matrix_exists (2 ^ e) (leaf_entry transposed bi 4 (2 ^ e) A B)) as [C HC]. exists C. split.
  - eapply always_unique; [by apply ps_pow2_order|exact HC|]. intros C' HC'. by eapply is_matrix_unique.
  - eapply always_unique; [by apply ps_pow2_order|exact HC|]. intros C' HC'. by eapply is_matrix_unique.
Qed.

Lemma ones_entry N transposed i j : i < N -> j < N ->
  pentry transposed N (replicate (N * N) 1%Z) (replicate (N * N) 1%Z) i j = Z.of_nat N.
Proof.
  intros Hi Hj.
  assert (He : forall i j, i < N -> j < N -> ent N (replicate (N * N) 1%Z) i j = 1%Z).
  { intros i' j' Hi' Hj'. apply ent_eq. apply lookup_replicate_2. by apply mixed_lt. }
  unfold pentry, prod_t_entry, prod_entry. destruct transposed.
  - rewrite (dot_ext _ (fun _ => 1%Z)); [by apply dot_const_pos|]. intros k Hk%elem_of_seq. rewrite !He by lia. done.
  - rewrite (dot_ext _ (fun _ => 1%Z)); [by apply dot_const_pos|]. intros k Hk%elem_of_seq. rewrite !He by lia. done.
Qed.
Lemma ps_odd_wrong N transposed bi br mws maxd rel G reps :
  (Z.of_nat N * Z.of_nat N < 2 ^ 62)%Z -> (0 <= mws < Z.of_nat N)%Z -> 3 <= G ->
  Nat.odd N = true -> (maxd <= Z.of_nat N * Z.of_nat N)%Z ->
  exists A B : list Z, length A = N * N /\ length B = N * N /\
    forall C, may_return (pseudodynamic_matrix_multiply N A B transposed br bi mws maxd rel G reps) C ->
      ~ is_matrix N (pentry transposed N A B) C.
Proof.
  intros HN Hm HG Hodd Hd. exists (replicate (N * N) 1%Z), (replicate (N * N) 1%Z).
  split_and!; [apply replicate_length..|]. intros C Hret [_ HC].
  apply ps_odd_lost in Hret; [|done..].
  rewrite HC in Hret by lia. injection Hret as Hret. rewrite ones_entry in Hret by lia. simpl in Hret. lia.
Qed.
