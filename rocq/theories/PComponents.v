(** Components find those of their own run on their own locality. *)
From Coq Require Import ZArith Ascii String Psatz.
From Verif Require Import Base Conc ConcFacts Num Spec Tools MKernels MRecursive MSchedule SpecSched MPrint SpecPrint PPrint PTranscript PCmdline4 PVerbose2 PWord
  SpecCmdline MTranscript MVerbose MComponents SpecComponents MApp.
Local Open Scope string_scope.

(** * Names *)
Lemma show_nat_inj k k' : show_nat k = show_nat k' -> k = k'.
Proof.
  unfold show_nat. intros E. pose proof (decimal_show (N.of_nat k)) as D. rewrite E in D.
  pose proof (decimal_fun _ _ _ D (decimal_show (N.of_nat k'))). lia.
Qed.
Lemma app_inj_l (a b c : string) : a ++ b = a ++ c -> b = c.
Proof. induction a as [|x a IH]; [done|]. change (String x (a ++ b) = String x (a ++ c) -> b = c). intros E. apply IH. congruence. Qed.
Lemma multiplier_inj k k' : multiplier_name k = multiplier_name k' -> k = k'.
Proof. unfold multiplier_name. intros E. apply show_nat_inj. exact (app_inj_l _ _ _ E). Qed.
Lemma recursive_inj k k' : recursive_name k = recursive_name k' -> k = k'.
Proof. unfold recursive_name. intros E. apply show_nat_inj. exact (app_inj_l _ _ _ E). Qed.
Lemma names_differ k k' : multiplier_name k <> recursive_name k'.
Proof. intros E. apply (f_equal (String.get 1)) in E. discriminate E. Qed.

Section Facts.
  Context {T : Type} `{NumOps T}.
  Context (resolve : arr -> string -> option (object T)).
  Context (loc N : nat) (A B : list T) (transposed : bool) (bi br : nat).
  Context (Hm : forall path, resolve path (multiplier_name loc) = Some (Object loc (Multiplier N A B transposed bi))).

  Section Recursion.
    Context (Hr : forall path, resolve path (recursive_name loc) = Some (Object loc (Recursive br))).
    Lemma dist_named_eq fuel path x y n : dist_named resolve fuel path loc br x y n = dist N A B transposed bi br fuel path x y n.
    Proof.
      revert path x y n. induction fuel as [|fuel IH]; intros path x y n; cbn [dist_named dist]; rewrite (Hm path).
      - reflexivity.
      - rewrite (Hr path). destruct (n <=? br)%nat; [reflexivity|]. apply pbind_eq; [reflexivity|]. intros [].
        apply parL_eq. intros [[q ox] oy] _. by rewrite IH.
    Qed.
    Lemma distribute_named_eq path x y n : distribute_named resolve path loc br x y n = distribute_recursively N A B transposed bi br path x y n.
    Proof. unfold distribute_named, distribute_recursively. by rewrite dist_named_eq. Qed.
    Lemma trace_named_eq print fuel path x y n : trace_named resolve print fuel path loc br x y n = trace fuel br (print loc) x y n.
    Proof.
      revert path x y n. induction fuel as [|fuel IH]; intros path x y n; cbn [trace_named trace]; [reflexivity|].
      destruct (n <=? br)%nat; [reflexivity|]. rewrite (Hr path). cbn [flat_map fst snd]. by rewrite !IH.
    Qed.
  End Recursion.
End Facts.

(** * What is found *)
Section Found.
  Context {T : Type} `{NumOps T}.
  Implicit Types (resolve : arr -> string -> option (object T)) (reg : registry T).
  (** Only one object is registered under the name. *)
  Lemma answers_only reg resolve name ob path : answers reg resolve -> (name, ob) ∈ reg -> (forall ob', (name, ob') ∈ reg -> ob' = ob) ->
    resolve path name = Some ob.
  Proof.
    intros Ha Hin Hone. specialize (Ha path name). destruct (resolve path name) as [ob'|]; [by rewrite (Hone ob' Ha)|]. destruct (Ha ob Hin).
  Qed.
  Context (N : nat) (A B : list T) (transposed : bool) (bi br : nat).
  Lemma single_found here old resolve : unused old [multiplier_name here; recursive_name here] ->
    answers (old ++ single_registry here N A B transposed bi br)%list resolve -> forall path,
    resolve path (multiplier_name here) = Some (Object here (Multiplier N A B transposed bi)) /\
    resolve path (recursive_name here) = Some (Object here (Recursive br)).
  Proof.
    intros Hu Ha path. split; (eapply answers_only; [exact Ha|set_solver|]); intros ob Hin; apply elem_of_app in Hin as [Hin|Hin].
    - destruct (Hu _ _ Hin). set_solver.
    - apply elem_of_cons in Hin as [E|Hin]; [congruence|]. apply elem_of_list_singleton in Hin. exfalso. apply (names_differ here here). congruence.
    - destruct (Hu _ _ Hin). set_solver.
    - apply elem_of_cons in Hin as [E|Hin]; [exfalso; apply (names_differ here here); congruence|]. apply elem_of_list_singleton in Hin. congruence.
  Qed.

  Definition static_names root ids : list string := (map multiplier_name (compute_ids root ids) ++ map recursive_name (compute_ids root ids))%list.
  Lemma recursive_registered root ids (all : list (list work)) reps name ob :
    (name, ob) ∈ flat_map (fun _ : nat => flat_map (fun iw => match compute_ids root ids !! iw.1 with
       | Some k => [(recursive_name k, Object (T := T) k (Recursive br))] | None => [] end) (indexed all)) (seq 0 reps) <->
    0 < reps /\ exists i w k, (i, w) ∈ indexed all /\ compute_ids root ids !! i = Some k /\ name = recursive_name k /\ ob = Object k (Recursive br).
  Proof.
    rewrite elem_of_list_In, in_flat_map. split.
    - intros (r & Hr & Hin). apply in_seq in Hr. split; [lia|]. apply in_flat_map in Hin as ([i w] & Hin & Hx). cbn [fst] in Hx.
      destruct (compute_ids root ids !! i) as [k|] eqn:E; [|destruct Hx]. destruct Hx as [Hx|[]]. exists i, w, k.
      split; [by apply elem_of_list_In|]. split; [exact E|]. split; congruence.
    - intros (Hr & i & w & k & Hin & E & -> & ->). exists 0. split; [apply in_seq; lia|]. apply in_flat_map. exists (i, w). split; [by apply elem_of_list_In|].
      cbn [fst]. rewrite E. by left.
  Qed.
  Lemma static_found root ids all reps old resolve k : unused old (static_names root ids) ->
    answers (old ++ static_registry root ids N A B transposed bi br all reps)%list resolve -> k ∈ compute_ids root ids ->
    (forall path, resolve path (multiplier_name k) = Some (Object k (Multiplier N A B transposed bi))) /\
    (0 < reps -> (exists i w, (i, w) ∈ indexed all /\ compute_ids root ids !! i = Some k) ->
      forall path, resolve path (recursive_name k) = Some (Object k (Recursive br))).
  Proof.
    intros Hu Ha Hk.
    assert (Hmap : forall name ob, (name, ob) ∈ map (fun k => (multiplier_name k, Object k (Multiplier N A B transposed bi))) (compute_ids root ids) <->
      exists k, k ∈ compute_ids root ids /\ name = multiplier_name k /\ ob = Object k (Multiplier N A B transposed bi)).
    { intros name ob. rewrite elem_of_list_In, in_map_iff. split.
      - intros (k' & E & Hin). exists k'. split; [by apply elem_of_list_In|]. split; congruence.
      - intros (k' & Hin & -> & ->). exists k'. split; [done|]. by apply elem_of_list_In. }
    split.
    - intros path. eapply answers_only; [exact Ha| |].
      + apply elem_of_app. right. apply elem_of_app. left. apply Hmap. eauto.
      + intros ob Hin. apply elem_of_app in Hin as [Hin|Hin].
        * destruct (Hu _ _ Hin). apply elem_of_app. left. apply elem_of_list_In, in_map, elem_of_list_In, Hk.
        * apply elem_of_app in Hin as [Hin|Hin].
          -- apply Hmap in Hin as (k' & _ & E & ->). by apply multiplier_inj in E as ->.
          -- apply recursive_registered in Hin as (_ & i & w & k' & _ & _ & E & _). destruct (names_differ _ _ E).
    - intros Hr (i & w & Hiw & Ei) path. eapply answers_only; [exact Ha| |].
      + apply elem_of_app. right. apply elem_of_app. right. apply recursive_registered. split; [exact Hr|]. eauto 10.
      + intros ob Hin. apply elem_of_app in Hin as [Hin|Hin].
        * destruct (Hu _ _ Hin). apply elem_of_app. right. apply elem_of_list_In, in_map, elem_of_list_In, Hk.
        * apply elem_of_app in Hin as [Hin|Hin].
          -- apply Hmap in Hin as (k' & _ & E & _). symmetry in E. destruct (names_differ _ _ E).
          -- apply recursive_registered in Hin as (_ & i' & w' & k' & _ & _ & E & ->). by apply recursive_inj in E as ->.
  Qed.
End Found.

(** * The programs *)
Section Programs.
  Context {T : Type} `{NumOps T}.
  Implicit Types (resolve : arr -> string -> option (object T)) (reg : registry T).
  Context (A B : list T) (transposed : bool) (bi br : nat).

  Lemma single_named_eq here N reps old resolve : unused old [multiplier_name here; recursive_name here] ->
    answers (old ++ single_registry here N A B transposed bi br)%list resolve ->
    single_named resolve here N br reps = single_matrix_multiply N A B transposed bi br reps.
  Proof.
    intros Hu Ha. pose proof (single_found N A B transposed bi br here old resolve Hu Ha) as Hf. unfold single_named, single_matrix_multiply.
    assert (E : (fun (r : nat) (_ : list T) => distribute_named resolve [r] here br 0 0 N) = (fun r _ => distribute_recursively N A B transposed bi br [r] 0 0 N)); [|by rewrite E].
    apply FunctionalExtensionality.functional_extensionality. intros r. apply FunctionalExtensionality.functional_extensionality. intros _.
    apply distribute_named_eq; intros path; apply Hf.
  Qed.

  (** The packages *)
  Lemma indexed_snd all : map snd (indexed all) = concat all.
  Proof.
    unfold indexed. assert (G : forall f : nat -> nat, map snd (concat (imap (fun i ws => map (fun w : work => (f i, w)) ws) all)) = concat all); [|exact (G (fun i => i))].
    induction all as [|ws all IH]; intros f; [reflexivity|]. rewrite imap_cons. cbn [concat]. rewrite map_app, map_map. cbn [snd]. rewrite map_id.
    f_equal. exact (IH (fun i => f (S i))).
  Qed.
  Lemma indexed_in all i w : (i, w) ∈ indexed all <-> exists ws, all !! i = Some ws /\ w ∈ ws.
  Proof.
    unfold indexed. rewrite elem_of_list_In, in_concat. split.
    - intros (l & Hl & Hin). apply elem_of_list_In, elem_of_lookup_imap in Hl as (i' & ws & -> & Hi). apply in_map_iff in Hin as (w' & E & Hw).
      assert (i' = i) as -> by congruence. assert (w' = w) as -> by congruence. exists ws. split; [exact Hi|by apply elem_of_list_In].
    - intros (ws & Hi & Hw). eexists. split; [apply elem_of_list_In, elem_of_lookup_imap; exists i, ws; split; [reflexivity|exact Hi]|].
      apply in_map_iff. exists w. split; [reflexivity|by apply elem_of_list_In].
  Qed.
  Lemma parL_imap {X Y} (l : list X) (h : X -> Y) (f : nat * X -> prog T unit) (g : nat * Y -> prog T unit) :
    (forall k x, x ∈ l -> f (k, x) = g (k, h x)) -> parL (imap (fun k x => (k, x)) l) f = parL (imap (fun k y => (k, y)) (map h l)) g.
  Proof.
    intros E.
    assert (G : forall t : nat -> nat, parL (imap (fun k x => (t k, x)) l) f = parL (imap (fun k y => (t k, y)) (map h l)) g); [|exact (G (fun k => k))].
    induction l as [|x l IH]; intros t; [reflexivity|]. cbn [map]. rewrite !imap_cons. cbn [parL]. rewrite E by (by left).
    pose proof (IH ltac:(intros; apply E; by right) (fun k => t (S k))) as IH'. exact (f_equal (fun p => Par (g (t 0, h x)) p (Ret tt)) IH').
  Qed.
  Lemma erase_length root ids : root ∈ ids -> S (length (erase root ids)) = length ids.
  Proof.
    intros Hr. induction ids as [|k ids IH]; [by apply elem_of_nil in Hr|]. cbn [erase]. destruct (Nat.eqb_spec k root); [done|].
    cbn [length]. apply elem_of_cons in Hr as [->|Hr]; [done|]. by rewrite IH.
  Qed.
  Lemma compute_length root ids : root ∈ ids -> length (compute_ids root ids) = if (1 <? length ids)%nat then length ids - 1 else length ids.
  Proof. intros Hr. unfold compute_ids. destruct (1 <? length ids)%nat; [|done]. pose proof (erase_length root ids Hr). lia. Qed.

  Lemma static_named_eq N root ids mws maxd rel reps old resolve all : root ∈ ids ->
    create_schedule (Z.of_nat N) mws maxd rel (S (N * N * N)) (if (1 <? length ids)%nat then length ids - 1 else length ids) = Ok all ->
    length all = (if (1 <? length ids)%nat then length ids - 1 else length ids) ->
    unused old (static_names root ids) ->
    answers (old ++ static_registry root ids N A B transposed bi br all reps)%list resolve ->
    static_improved_named resolve root ids N br mws maxd rel reps =
    static_improved_matrix_multiply N A B transposed bi br mws maxd rel (length ids) reps.
  Proof.
    intros Hroot Hc Hl Hu Ha. unfold static_improved_named, static_improved_matrix_multiply. rewrite Hc.
    apply pbind_eq; [reflexivity|]. intros []. apply pbind_eq; [|done].
    destruct (Nat.eq_dec reps 0) as [->|Hr]; [reflexivity|].
    match goal with |- forP _ _ _ ?f = forP _ _ _ ?g => assert (E : f = g); [|by rewrite E] end.
    apply FunctionalExtensionality.functional_extensionality. intros r.
    rewrite <-(indexed_snd all). apply (parL_imap (indexed all) snd). intros k [i w] Hiw. cbn [fst snd].
    assert (Hi : i < length (compute_ids root ids)).
    { apply indexed_in in Hiw as (ws & Hi & _). rewrite (compute_length root ids Hroot), <-Hl. by apply lookup_lt_Some in Hi. }
    destruct (compute_ids root ids !! i) as [loc|] eqn:El; [|apply lookup_ge_None in El; lia].
    destruct (static_found N A B transposed bi br root ids all reps old resolve loc Hu Ha) as [Hm Hrec]; [by apply elem_of_list_lookup_2 in El|].
    unfold package_task. rewrite (distribute_named_eq resolve loc N A B transposed bi br Hm (Hrec ltac:(lia) (ex_intro _ i (ex_intro _ w (conj Hiw El))))). reflexivity.
  Qed.
End Programs.

(** * Results *)
Section Results.
  Context {T : Type} `{NumOps T}.
  Implicit Types (resolve : arr -> string -> option (object T)).
  Lemma app_named_eq here (A B : list T) o old resolve : unused old [multiplier_name here; recursive_name here] ->
    answers (old ++ single_registry here (o_n o) A B (o_transposed o) (o_block_input o) (o_block_result o))%list resolve ->
    app_single_named resolve here o = app_single o A B.
  Proof.
    intros Hu Ha. pose proof (single_found _ A B _ _ _ here old resolve Hu Ha) as Hf. unfold app_single_named, app_single.
    assert (E : (fun (r : nat) (_ : list T) => distribute_named resolve [r] here (o_block_result o) 0 0 (o_n o)) =
      (fun r _ => distribute_recursively (o_n o) A B (o_transposed o) (o_block_input o) (o_block_result o) [r] 0 0 (o_n o))); [|by rewrite E].
    apply FunctionalExtensionality.functional_extensionality. intros r. apply FunctionalExtensionality.functional_extensionality. intros C0.
    apply distribute_named_eq; intros path; apply Hf.
  Qed.
  (** A service that prefers older entries *)
  Definition oldest (reg : registry T) (path : arr) (name : string) : option (object T) :=
    match find (fun e => String.eqb e.1 name) reg with Some e => Some e.2 | None => None end.
  Lemma oldest_answers reg : answers reg (oldest reg).
  Proof.
    intros path name. unfold oldest. destruct (find _ reg) as [[n ob]|] eqn:E.
    - apply find_some in E as [Hin E]. apply String.eqb_eq in E. cbn [fst snd] in *. subst n. by apply elem_of_list_In.
    - intros ob Hin. apply elem_of_list_In in Hin. pose proof (find_none _ _ E _ Hin) as Hn. cbn [fst] in Hn. by rewrite String.eqb_refl in Hn.
  Qed.
  Lemma stale_eq here N (A B A' B' : list T) transposed bi br reps :
    let old := [(multiplier_name here, Object here (Multiplier N A' B' transposed bi))] in
    single_named (oldest (old ++ single_registry here N A B transposed bi br)%list) here N br reps = single_matrix_multiply N A' B' transposed bi br reps.
  Proof.
    cbv zeta. set (reg := (_ ++ _)%list). assert (Hd : String.eqb (multiplier_name here) (recursive_name here) = false). { apply String.eqb_neq, names_differ. }
    assert (Hm : forall path, oldest reg path (multiplier_name here) = Some (Object here (Multiplier N A' B' transposed bi))).
    { intros path. unfold oldest, reg. cbn [Datatypes.app find fst]. by rewrite String.eqb_refl. }
    assert (Hr : forall path, oldest reg path (recursive_name here) = Some (Object here (Recursive br))).
    { intros path. unfold oldest, reg. cbn [Datatypes.app single_registry find fst]. by rewrite !Hd, String.eqb_refl. }
    clearbody reg. unfold single_named, single_matrix_multiply.
    assert (E : (fun (r : nat) (_ : list T) => distribute_named (oldest reg) [r] here br 0 0 N) = (fun r _ => distribute_recursively N A' B' transposed bi br [r] 0 0 N)); [|by rewrite E].
    apply FunctionalExtensionality.functional_extensionality. intros r. apply FunctionalExtensionality.functional_extensionality. intros C0.
    by apply distribute_named_eq.
  Qed.
End Results.
