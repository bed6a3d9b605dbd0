(** What evaluate.py finds in the standard output of the application. *)
From Coq Require Import ZArith Reals Ascii String Psatz.
From Flocq Require Import Core IEEE754.Binary IEEE754.Bits.
From Verif Require Import Base MDouble MPrint SpecPrint PPrint PPrint2 MReport MTranscript PTranscript PTranscript2 MApp SpecApp SpecTranscript.
Local Open Scope string_scope.

(** * Finding the one piece *)
Definition quiet_or (p t x : string) : Prop := quiet p x \/ x = t.
Lemma first_piece p t l : Forall (quiet_or p t) l -> t ∈ l -> exists l1 l2, l = (l1 ++ t :: l2)%list /\ Forall (quiet p) l1.
Proof.
  intros Hl Hin. induction Hl as [|x l Hx Hl IH]; [by apply elem_of_nil in Hin|].
  destruct (decide (x = t)) as [->|Hne]; [by exists [], l|].
  assert (t ∈ l) as Ht by (apply elem_of_cons in Hin as [->|]; [contradiction|done]).
  destruct (IH Ht) as (l1 & l2 & -> & H1). exists (x :: l1), l2. split; [reflexivity|]. constructor; [|exact H1].
  destruct Hx as [Hx|]; [exact Hx|contradiction].
Qed.
Lemma search_piece p q c stop pre g post l :
  let t := pre ++ p ++ String ":" q ++ g ++ String c stop ++ post in
  Forall (quiet_or p t) l -> t ∈ l ->
  has_char ":" pre = false -> has_char ":" p = false -> has_char ":" (q ++ g ++ String c stop ++ post) = false ->
  has_char end_of_line g = false -> has_char c g = false ->
  search (p ++ String ":" q) (String c stop) (put l) = Some g.
Proof.
  intros t Hl Hin. destruct (first_piece p t l Hl Hin) as (l1 & l2 & -> & H1). by apply search_pieces.
Qed.

(** * The pieces of the output *)
Section Pieces.
  Context (o : options) (k : clocks) (verdict : option bool) (names : names_ok k).
  Let p1 := "total time".
  Let p2 := "average time per run".
  Let p3 := "performance".

  Ltac colons := repeat first [apply Forall_nil; exact I | apply Forall_cons; split | exact I
    | exact (show_nat_has ":" _ eq_refl) | exact (show64_has ":" _ _ (conj eq_refl eq_refl)) | assumption | reflexivity].
  Ltac quiet ps := refine (quiet_parts _ ps _ _); [reflexivity|colons].

  Definition chunk_duration : string := put ["duration inner: "; show64 6 (c_inner k); "s"; newline].
  Definition chunk_inner (X Y K : nat) (x : binary64) : string :=
    put ["[X_size = "; show_nat X; ", Y_size = "; show_nat Y; ", K_size = "; show_nat K; "] inner performance: ";
         show64 6 x; "Gflops (average across repetitions)"; newline].
  Definition chunk_total (pre : string) (d : binary64) : string :=
    put [pre ++ "[N = "; show_nat (o_n o); "] total time: "; show64 6 d; "s"; newline].
  Definition chunk_average (pre : string) (a : binary64) : string :=
    put [pre ++ "[N = "; show_nat (o_n o); "] average time per run: "; show64 6 a;
         "s (repetitions = "; show_nat (o_repetitions o); ")"; newline].
  Definition chunk_performance (x : binary64) : string :=
    put ["[N = "; show_nat (o_n o); "] performance: "; show64 6 x; "Gflops (average across repetitions)"; newline].
  Definition chunk_reference (x : binary64) : string :=
    put ["[N = "; show_nat (o_n o); "] performance reference: "; show64 6 x; " Gflops (reference implementation)"; newline].
  Definition chunk_naive (x : binary64) : string := put ["naive matMult took "; show64 6 x; " [s]"; newline].

  Definition pre_ok (pre : string) : Prop := pre = "" \/ pre = "non-HPX ".
  Definition key (p : string) : Prop := p = p1 \/ p = p2 \/ p = p3.

  Lemma q_duration p : key p -> quiet p chunk_duration.
  Proof. intros [->|[->| ->]]; quiet [Lit "duration inner: "; Any (show64 6 (c_inner k)); Lit "s"; Lit newline]. Qed.
  Lemma q_inner p X Y K x : p = p1 \/ p = p2 -> quiet p (chunk_inner X Y K x).
  Proof.
    intros [->| ->]; quiet [Lit "[X_size = "; Any (show_nat X); Lit ", Y_size = "; Any (show_nat Y); Lit ", K_size = ";
      Any (show_nat K); Lit "] inner performance: "; Any (show64 6 x); Lit "Gflops (average across repetitions)"; Lit newline].
  Qed.
  Lemma q_total p pre d : pre_ok pre -> p = p2 \/ p = p3 -> quiet p (chunk_total pre d).
  Proof.
    intros [->| ->] [->| ->].
    1,2: quiet [Lit "[N = "; Any (show_nat (o_n o)); Lit "] total time: "; Any (show64 6 d); Lit "s"; Lit newline].
    1,2: quiet [Lit "non-HPX [N = "; Any (show_nat (o_n o)); Lit "] total time: "; Any (show64 6 d); Lit "s"; Lit newline].
  Qed.
  Lemma q_average p pre d : pre_ok pre -> p = p1 \/ p = p3 -> quiet p (chunk_average pre d).
  Proof.
    intros [->| ->] [->| ->].
    1,2: quiet [Lit "[N = "; Any (show_nat (o_n o)); Lit "] average time per run: "; Any (show64 6 d); Lit "s (repetitions = "; Any (show_nat (o_repetitions o)); Lit ")"; Lit newline].
    1,2: quiet [Lit "non-HPX [N = "; Any (show_nat (o_n o)); Lit "] average time per run: "; Any (show64 6 d); Lit "s (repetitions = "; Any (show_nat (o_repetitions o)); Lit ")"; Lit newline].
  Qed.
  Lemma q_performance p x : p = p1 \/ p = p2 -> quiet p (chunk_performance x).
  Proof. intros [->| ->]; quiet [Lit "[N = "; Any (show_nat (o_n o)); Lit "] performance: "; Any (show64 6 x); Lit "Gflops (average across repetitions)"; Lit newline]. Qed.
  Lemma q_reference p x : key p -> quiet p (chunk_reference x).
  Proof. intros [->|[->| ->]]; quiet [Lit "[N = "; Any (show_nat (o_n o)); Lit "] performance reference: "; Any (show64 6 x); Lit " Gflops (reference implementation)"; Lit newline]. Qed.
  Lemma q_naive p x : key p -> quiet p (chunk_naive x).
  Proof. intros [->|[->| ->]]; quiet [Lit "naive matMult took "; Any (show64 6 x); Lit " [s]"; Lit newline]. Qed.
  Lemma q_id p id : key p -> has_char ":" id = false -> quiet p (put ["computing on id: "; id; newline]).
  Proof. intros [->|[->| ->]] Hid; quiet [Lit "computing on id: "; Any id; Lit newline]. Qed.
  (** a text that is written out *)
  Lemma q_lit p s : scan (rev (chars p)) [] [Lit s; Lit newline] = true -> quiet p (put [s; newline]).
  Proof. intros H. refine (quiet_parts _ [Lit s; Lit newline] H _). repeat constructor. Qed.
  Lemma q_warning p a : key p -> a = "looped" \/ a = "semi" ->
    quiet p (put ["warning: algorithm """; a; """ doesn't support the ""repetitions"" parameter"]).
  Proof. intros [->|[->| ->]] [->| ->]; quiet [Lit "warning: algorithm """; Any "semi"; Lit """ doesn't support the ""repetitions"" parameter"] || quiet [Lit "warning: algorithm """; Any "looped"; Lit """ doesn't support the ""repetitions"" parameter"]. Qed.

  (** The output of each choice *)
  Definition perf (v : choice) : binary64 :=
    performance64 (Z.of_nat (o_repetitions o)) (Z.of_nat (o_n o)) (Z.of_nat (o_n o)) (Z.of_nat (o_n o)) (reported_time v k).
  Definition inner_perf : binary64 :=
    performance64 (Z.of_nat (o_repetitions o)) (Z.of_nat (o_n o + padding (o_n o) (L3_X shipped)))
      (Z.of_nat (o_n o + padding (o_n o) (L3_Y shipped))) (Z.of_nat (o_n o + padding (o_n o) (L3_K shipped))) (c_inner k).
  Definition the_inner : string :=
    chunk_inner (o_n o + padding (o_n o) (L3_X shipped)) (o_n o + padding (o_n o) (L3_Y shipped)) (o_n o + padding (o_n o) (L3_K shipped)) inner_perf.
  Definition pre_of (v : choice) : string := match v with KernelTest | KernelTiled => "non-HPX " | _ => "" end.
  Definition total_of (v : choice) : string := chunk_total (pre_of v) (reported_time v k).
  Definition average_of (v : choice) : string := chunk_average (pre_of v) (average64 (Z.of_nat (o_repetitions o)) (reported_time v k)).

  Definition quiet_all (x : string) : Prop := quiet p1 x /\ quiet p2 x /\ quiet p3 x.
  Lemma lit_all s : scan (rev (chars p1)) [] [Lit s; Lit newline] = true -> scan (rev (chars p2)) [] [Lit s; Lit newline] = true ->
    scan (rev (chars p3)) [] [Lit s; Lit newline] = true -> quiet_all (put [s; newline]).
  Proof. intros H1 H2 H3. repeat split; by apply q_lit. Qed.
  Lemma key_all x : (forall p, key p -> quiet p x) -> quiet_all x.
  Proof. intros H. repeat split; apply H; unfold key; tauto. Qed.

  (** The classes of pieces of a run *)
  Inductive piece (v : choice) : string -> Prop :=
  | piece_quiet x : quiet_all x -> piece v x
  | piece_total : piece v (total_of v)
  | piece_average : piece v (average_of v)
  | piece_performance : piece v (chunk_performance (perf v))
  | piece_inner : reports_inner v -> piece v the_inner.

  Lemma static_pieces v : Forall (piece v) (static_chunks k).
  Proof.
    unfold static_chunks. constructor; [apply piece_quiet, lit_all; reflexivity|].
    assert (Hids : Forall (fun id => has_char ":" id = false) (c_ids k)).
    { apply Forall_forall. intros id Hid. apply has_false. exact (names id Hid). }
    destruct Hids as [|id ids Hid Hids]; [constructor|]. constructor; [apply piece_quiet, lit_all; reflexivity|].
    cbn [map]. constructor; [apply piece_quiet, key_all; intros p Hp; by apply q_id|].
    induction Hids as [|id' ids Hid' Hids IH]; [constructor|]. cbn [map]. constructor; [|exact IH].
    apply piece_quiet, key_all. intros p Hp. by apply q_id.
  Qed.
  Lemma warning_pieces v a : a = "looped" \/ a = "semi" -> Forall (piece v) (warning_chunks o a).
  Proof.
    intros Ha. unfold warning_chunks. destruct (1 <? o_repetitions o)%nat; [|constructor]. constructor; [|constructor].
    apply piece_quiet, key_all. intros p Hp. by apply q_warning.
  Qed.
  Lemma inner_pieces v : reports_inner v -> Forall (piece v) (inner_chunks o k).
  Proof.
    intros Hv. constructor; [|constructor; [|constructor]].
    - apply piece_quiet, key_all. exact q_duration.
    - exact (piece_inner v Hv).
  Qed.
  Lemma time_pieces v : Forall (piece v) (time_chunks o (pre_of v) (reported_time v k)).
  Proof. constructor; [exact (piece_total v)|constructor; [exact (piece_average v)|constructor]]. Qed.
  Lemma report_pieces v : Forall (piece v) (report_chunks o k (reported_time v k) verdict).
  Proof.
    constructor; [exact (piece_performance v)|]. destruct verdict as [ok|]; [|constructor]. apply Forall_app. split.
    - destruct (1 <? o_repetitions o)%nat; [|constructor]. constructor; [|constructor]. apply piece_quiet, lit_all; reflexivity.
    - constructor; [|constructor; [|constructor; [|constructor]]]; apply piece_quiet.
      + apply key_all. intros p Hp. by apply q_naive.
      + apply key_all. intros p Hp. by apply q_reference.
      + destruct ok; apply lit_all; reflexivity.
  Qed.

  (** The output of a choice, in program order *)
  Definition hpx_part (v : choice) : list string :=
    match v with
    | Single => [put ["using parallel single node algorithm"; newline]]
    | Pseudodynamic => static_chunks k
    | Algorithms | Looped => warning_chunks o "looped"
    | Semi => warning_chunks o "semi"
    | Combined => inner_chunks o k
    | _ => []
    end.
  Definition hpx_times (v : choice) : list string :=
    match v with KernelTest | KernelTiled => [] | _ => time_chunks o (pre_of v) (reported_time v k) end.
  Definition host_part (v : choice) : list string :=
    match v with
    | KernelTest => time_chunks o (pre_of v) (reported_time v k)
    | KernelTiled => inner_chunks o k ++ time_chunks o (pre_of v) (reported_time v k)
    | _ => []
    end%list.
  Lemma chunks_eq v : (o_algorithm o, v) ∈ accepted ->
    app_chunks o k verdict =
      (put ["before HPX"; newline] :: put ["in HPX main"; newline] :: hpx_part v ++ hpx_times v ++
       put ["after HPX"; newline] :: host_part v ++ report_chunks o k (reported_time v k) verdict)%list.
  Proof.
    intros Hv. unfold app_chunks, hpx_chunks, known_algorithm. unfold accepted in Hv.
    repeat (apply elem_of_cons in Hv as [[= Ha ->]|Hv];
      [rewrite Ha; cbn -[put static_chunks warning_chunks inner_chunks time_chunks report_chunks];
       rewrite ?app_assoc_reverse; reflexivity|]).
    by apply elem_of_nil in Hv.
  Qed.
  Lemma all_pieces v : (o_algorithm o, v) ∈ accepted -> Forall (piece v) (app_chunks o k verdict).
  Proof.
    intros Hv. rewrite (chunks_eq v Hv).
    assert (Hq : forall s, quiet_all (put [s; newline]) -> piece v (put [s; newline])) by (intros; by apply piece_quiet).
    constructor; [apply Hq, lit_all; reflexivity|]. constructor; [apply Hq, lit_all; reflexivity|].
    apply Forall_app. split; [|apply Forall_app; split; [|constructor; [apply Hq, lit_all; reflexivity|apply Forall_app; split]]].
    - destruct v; cbn [hpx_part].
      + constructor; [apply Hq, lit_all; reflexivity|constructor].
      + apply static_pieces.
      + apply warning_pieces; tauto.
      + apply warning_pieces; tauto.
      + apply warning_pieces; tauto.
      + apply inner_pieces. by left.
      + constructor.
      + constructor.
      + constructor.
    - destruct v; try apply time_pieces; constructor.
    - destruct v; cbn [host_part]; try apply Forall_nil; try exact I; [apply time_pieces|].
      apply Forall_app. split; [apply inner_pieces; by right|apply time_pieces].
    - apply report_pieces.
  Qed.
  Lemma in_total v : (o_algorithm o, v) ∈ accepted -> total_of v ∈ app_chunks o k verdict /\ average_of v ∈ app_chunks o k verdict /\
    chunk_performance (perf v) ∈ app_chunks o k verdict.
  Proof.
    intros Hv. rewrite (chunks_eq v Hv).
    assert (Ht : total_of v ∈ time_chunks o (pre_of v) (reported_time v k)) by (apply elem_of_cons; by left).
    assert (Ha : average_of v ∈ time_chunks o (pre_of v) (reported_time v k)) by (apply elem_of_cons; right; apply elem_of_cons; by left).
    assert (Hp : chunk_performance (perf v) ∈ report_chunks o k (reported_time v k) verdict) by (apply elem_of_cons; by left).
    assert (Hs : forall x, x ∈ time_chunks o (pre_of v) (reported_time v k) -> x ∈ hpx_times v \/ x ∈ host_part v).
    { intros x Hx. destruct v; try (left; exact Hx); right; [exact Hx|]. apply elem_of_app. by right. }
    repeat rewrite ?elem_of_cons, ?elem_of_app. pose proof (Hs _ Ht). pose proof (Hs _ Ha). tauto.
  Qed.

  Lemma total_in v l : Forall (piece v) l -> total_of v ∈ l ->
    total_time (put l) = Some (show64 6 (reported_time v k)).
  Proof.
    intros Hl Hin. set (g := show64 6 (reported_time v k)).
    assert (E : total_of v = (pre_of v ++ "[N = " ++ show_nat (o_n o) ++ "] ") ++ p1 ++ String ":" " " ++ g ++ String "s" "" ++ newline).
    { unfold total_of, chunk_total. cbn [put fold_right]. rewrite !append_assoc. reflexivity. }
    refine (search_piece p1 " " "s" "" (pre_of v ++ "[N = " ++ show_nat (o_n o) ++ "] ") g newline l _ _ _ _ _ _ _).
    - rewrite <-E. eapply Forall_impl; [exact Hl|]. intros x [y (H & _ & _)| | | |Hi].
      + by left.
      + by right.
      + left. apply q_average; [|by left]. destruct v; (by left) || by right.
      + left. apply q_performance. by left.
      + left. apply q_inner. by left.
    - rewrite <-E. exact Hin.
    - rewrite !has_app. rewrite (show_nat_has ":" _ eq_refl). by destruct v.
    - reflexivity.
    - rewrite !has_app. unfold g. rewrite (show64_has ":" _ _ (conj eq_refl eq_refl)). reflexivity.
    - exact (show64_has end_of_line _ _ (conj eq_refl eq_refl)).
    - exact (show64_has "s" _ _ (conj eq_refl eq_refl)).
  Qed.
  Lemma average_in v l : Forall (piece v) l -> average_of v ∈ l ->
    average_time (put l) = Some (show64 6 (average64 (Z.of_nat (o_repetitions o)) (reported_time v k))).
  Proof.
    intros Hl Hin. set (g := show64 6 (average64 (Z.of_nat (o_repetitions o)) (reported_time v k))).
    set (post := " (repetitions = " ++ show_nat (o_repetitions o) ++ ")" ++ newline).
    assert (E : average_of v = (pre_of v ++ "[N = " ++ show_nat (o_n o) ++ "] ") ++ p2 ++ String ":" " " ++ g ++ String "s" "" ++ post).
    { unfold average_of, chunk_average. cbn [put fold_right]. rewrite !append_assoc. reflexivity. }
    refine (search_piece p2 " " "s" "" (pre_of v ++ "[N = " ++ show_nat (o_n o) ++ "] ") g post l _ _ _ _ _ _ _).
    - rewrite <-E. eapply Forall_impl; [exact Hl|]. intros x [y (_ & H & _)| | | |Hi].
      + by left.
      + left. apply q_total; [|by left]. destruct v; (by left) || by right.
      + by right.
      + left. apply q_performance. by right.
      + left. apply q_inner. by right.
    - rewrite <-E. exact Hin.
    - rewrite !has_app. rewrite (show_nat_has ":" _ eq_refl). by destruct v.
    - reflexivity.
    - unfold post. rewrite !has_app. unfold g. rewrite (show64_has ":" _ _ (conj eq_refl eq_refl)), (show_nat_has ":" _ eq_refl). reflexivity.
    - exact (show64_has end_of_line _ _ (conj eq_refl eq_refl)).
    - exact (show64_has "s" _ _ (conj eq_refl eq_refl)).
  Qed.
  Lemma performance_in v l : ~ reports_inner v -> Forall (piece v) l -> chunk_performance (perf v) ∈ l ->
    performance (put l) = Some (show64 6 (perf v)).
  Proof.
    intros Hno Hl Hin. set (g := show64 6 (perf v)). set (post := " (average across repetitions)" ++ newline).
    assert (E : chunk_performance (perf v) = ("[N = " ++ show_nat (o_n o) ++ "] ") ++ p3 ++ String ":" " " ++ g ++ String "G" "flops" ++ post).
    { unfold chunk_performance. cbn [put fold_right]. rewrite !append_assoc. reflexivity. }
    refine (search_piece p3 " " "G" "flops" ("[N = " ++ show_nat (o_n o) ++ "] ") g post l _ _ _ _ _ _ _).
    - rewrite <-E. eapply Forall_impl; [exact Hl|]. intros x [y (_ & _ & H)| | | |Hi].
      + by left.
      + left. apply q_total; [|by right]. destruct v; (by left) || by right.
      + left. apply q_average; [|by right]. destruct v; (by left) || by right.
      + by right.
      + contradiction.
    - rewrite <-E. exact Hin.
    - rewrite !has_app. rewrite (show_nat_has ":" _ eq_refl). reflexivity.
    - reflexivity.
    - unfold post. rewrite !has_app. unfold g. rewrite (show64_has ":" _ _ (conj eq_refl eq_refl)). reflexivity.
    - exact (show64_has end_of_line _ _ (conj eq_refl eq_refl)).
    - exact (show64_has "G" _ _ (conj eq_refl eq_refl)).
  Qed.
  Lemma find_total v l : (o_algorithm o, v) ∈ accepted -> l ≡ₚ app_chunks o k verdict ->
    total_time (put l) = Some (show64 6 (reported_time v k)).
  Proof. intros Hv Hl. apply total_in; rewrite Hl; [exact (all_pieces v Hv)|exact (proj1 (in_total v Hv))]. Qed.
  Lemma find_average v l : (o_algorithm o, v) ∈ accepted -> l ≡ₚ app_chunks o k verdict ->
    average_time (put l) = Some (show64 6 (average64 (Z.of_nat (o_repetitions o)) (reported_time v k))).
  Proof. intros Hv Hl. apply average_in; rewrite Hl; [exact (all_pieces v Hv)|exact (proj1 (proj2 (in_total v Hv)))]. Qed.
  Lemma find_performance v l : (o_algorithm o, v) ∈ accepted -> ~ reports_inner v -> l ≡ₚ app_chunks o k verdict ->
    performance (put l) = Some (show64 6 (perf v)).
  Proof. intros Hv Hno Hl. apply performance_in; [exact Hno|rewrite Hl..]; [exact (all_pieces v Hv)|exact (proj2 (proj2 (in_total v Hv)))]. Qed.
  (** combined and kernel_tiled: the inner performance comes first. *)
  Lemma inner_first l1 l2 : Forall (quiet p3) l1 -> performance (put (l1 ++ the_inner :: l2)) = Some (show64 6 inner_perf).
  Proof.
    intros Hl1. set (g := show64 6 inner_perf). set (post := " (average across repetitions)" ++ newline).
    set (X := o_n o + padding (o_n o) (L3_X shipped)). set (Y := o_n o + padding (o_n o) (L3_Y shipped)). set (K := o_n o + padding (o_n o) (L3_K shipped)).
    set (pre := "[X_size = " ++ show_nat X ++ ", Y_size = " ++ show_nat Y ++ ", K_size = " ++ show_nat K ++ "] inner ").
    assert (E : the_inner = pre ++ p3 ++ String ":" " " ++ g ++ String "G" "flops" ++ post).
    { unfold the_inner, chunk_inner. fold X Y K. unfold pre. cbn [put fold_right]. rewrite !append_assoc. reflexivity. }
    rewrite E. refine (search_pieces p3 " " "G" "flops" pre g post l1 l2 Hl1 _ _ _ _ _).
    - unfold pre. rewrite !has_app, !(show_nat_has ":" _ eq_refl). reflexivity.
    - reflexivity.
    - unfold post. rewrite !has_app. unfold g. rewrite (show64_has ":" _ _ (conj eq_refl eq_refl)). reflexivity.
    - exact (show64_has end_of_line _ _ (conj eq_refl eq_refl)).
    - exact (show64_has "G" _ _ (conj eq_refl eq_refl)).
  Qed.
  Lemma find_inner v : (o_algorithm o, v) ∈ accepted -> reports_inner v ->
    performance (put (app_chunks o k verdict)) = Some (show64 6 inner_perf).
  Proof.
    intros Hv Hin.
    assert (Hd : quiet p3 chunk_duration) by (apply q_duration; unfold key; tauto).
    rewrite (chunks_eq v Hv). destruct Hin as [->| ->]; cbn [hpx_part hpx_times host_part].
    - apply (inner_first [put ["before HPX"; newline]; put ["in HPX main"; newline]; chunk_duration]).
      constructor; [by apply q_lit|]. constructor; [by apply q_lit|]. constructor; [exact Hd|constructor].
    - apply (inner_first [put ["before HPX"; newline]; put ["in HPX main"; newline]; put ["after HPX"; newline]; chunk_duration]).
      constructor; [by apply q_lit|]. constructor; [by apply q_lit|]. constructor; [by apply q_lit|]. constructor; [exact Hd|constructor].
  Qed.
End Pieces.
