(** Proofs about the exception classes (MExcept.v). *)
From Verif Require Import Base MExcept.
From Coq Require Import Ascii String.

Lemma contents_new s h : contents (new_string s h).1 (new_string s h).2 = Ok s.
Proof.
  unfold contents, new_string. cbn.
  by rewrite (list_lookup_middle h [] (Live s)).
Qed.
Lemma contents_new_old s h p :
  p < List.length h -> contents p (new_string s h).2 = contents p h.
Proof. intros Hp. unfold contents, new_string. cbn. by rewrite lookup_app_l. Qed.
Lemma contents_live p h s : contents p h = Ok s -> p < List.length h.
Proof.
  unfold contents. destruct (h !! p) eqn:E; [|done]. intros _.
  by apply lookup_lt_Some in E.
Qed.

Definition dead (p : nat) (h : heap) : Prop := h !! p = Some Destroyed.
Lemma dead_act a h h' p : dead p h -> act a h = Ok h' -> dead p h'.
Proof.
  unfold dead. intros Hd. destruct a as [s|q|q s]; cbn.
  - intros [= <-]. by apply lookup_app_l_Some.
  - unfold contents. destruct (h !! q) as [[s|]|] eqn:E; cbn; try done.
    intros [= <-]. unfold destroy_string.
    destruct (decide (q = p)) as [->|]; [congruence|]. by rewrite list_lookup_insert_ne.
  - unfold contents. destruct (h !! q) as [[s'|]|] eqn:E; cbn; try done.
    intros [= <-].
    destruct (decide (q = p)) as [->|]; [congruence|]. by rewrite list_lookup_insert_ne.
Qed.
Lemma dead_acts l h h' p : dead p h -> acts l h = Ok h' -> dead p h'.
Proof.
  revert h. induction l as [|a l IH]; intros h Hd; cbn.
  - by intros [= <-].
  - destruct (act a h) as [h1|e] eqn:E; cbn; [|done].
    apply IH. by eapply dead_act.
Qed.
Lemma dead_char p i h : dead p h -> char_at p i h = Fail EDangling.
Proof. unfold dead, char_at, contents. by intros ->. Qed.

Lemma construct_spec c arg s h :
  contents arg h = Ok s ->
  exists e h', construct c arg h = Ok (e, h') /\ e_class e = c /\
    contents (e_message e) h' = Ok s /\ (forall p t, contents p h = Ok t -> contents p h' = Ok t).
Proof.
  intros Hs. unfold construct. rewrite Hs. cbn [rbind new_string].
  eexists _, _. split; [reflexivity|]. split; [done|]. split.
  - apply (contents_new s h).
  - intros p t Ht. rewrite <- Ht. apply (contents_new_old s h). by eapply contents_live.
Qed.

Lemma what_operand_spec e h s :
  contents (e_message e) h = Ok s ->
  exists t1 t2 h', what_operand e h = Ok (t1, t2, h') /\
    t1 = List.length h /\ t2 = S (List.length h) /\
    h' = (h ++ [Live (class_text (e_class e)); Live (class_text (e_class e) ++ s)%string])%list.
Proof.
  intros Hs. unfold what_operand. cbn [new_string].
  set (h1 := (h ++ [Live (class_text (e_class e))])%list).
  assert (contents (List.length h) h1 = Ok (class_text (e_class e))) as ->
    by apply (contents_new (class_text (e_class e)) h).
  assert (contents (e_message e) h1 = Ok s) as ->.
  { rewrite <- Hs. apply (contents_new_old _ h). by eapply contents_live. }
  cbn. eexists _, _, _. split; [reflexivity|]. subst h1.
  rewrite app_length. cbn. split; [done|]. split; [lia|]. by rewrite <- app_assoc.
Qed.

Lemma what_operand_text e h s :
  contents (e_message e) h = Ok s ->
  exists t1 t2 h', what_operand e h = Ok (t1, t2, h') /\
    contents t2 h' = Ok (class_text (e_class e) ++ s)%string.
Proof.
  intros Hs. destruct (what_operand_spec e h s Hs) as (t1 & t2 & h' & E & -> & -> & ->).
  eexists _, _, _. split; [exact E|]. unfold contents.
  rewrite lookup_app_r by lia. by replace (S (List.length h) - List.length h) with 1 by lia.
Qed.

Lemma what_spec e h s :
  contents (e_message e) h = Ok s ->
  exists p h', what e h = Ok (p, h') /\ dead p h' /\
    (forall q t, contents q h = Ok t -> contents q h' = Ok t).
Proof.
  intros Hs. destruct (what_operand_spec e h s Hs) as (t1 & t2 & h' & E & -> & -> & ->).
  unfold what. rewrite E. cbn [rbind].
  eexists _, _. split; [reflexivity|]. split.
  - unfold dead, destroy_string.
    rewrite list_lookup_insert_ne by lia. apply list_lookup_insert. rewrite app_length. cbn. lia.
  - intros q t Ht. pose proof (contents_live _ _ _ Ht). unfold contents, destroy_string.
    rewrite !list_lookup_insert_ne by lia. by rewrite lookup_app_l.
Qed.

(** The whole life of an exception: construct, call what(), do anything, read. *)
Lemma what_dangles c arg s h :
  contents arg h = Ok s ->
  exists e h1 p h2,
    construct c arg h = Ok (e, h1) /\ what e h1 = Ok (p, h2) /\
    contents (e_message e) h2 = Ok s /\
    forall l h3 i, acts l h2 = Ok h3 -> char_at p i h3 = Fail EDangling.
Proof.
  intros Hs. destruct (construct_spec c arg s h Hs) as (e & h1 & E1 & Hc & Hm & Hkeep).
  destruct (what_spec e h1 s Hm) as (p & h2 & E2 & Hd & Hk2).
  exists e, h1, p, h2. split; [done|]. split; [done|]. split; [by apply Hk2|].
  intros l h3 i Hl. apply dead_char. by eapply dead_acts.
Qed.

(** What can be read through c_str() of a live string. *)
Lemma get_end (s : string) i : (String.length s <= i)%nat -> String.get i s = None.
Proof. revert i. induction s as [|c s IH]; intros i Hi; [by destruct i|]. destruct i as [|i]; simpl in *; [lia|]. apply IH. lia. Qed.
Lemma text_chars t h text : contents t h = Ok text ->
  (forall i c, String.get i text = Some c -> char_at t i h = Ok c) /\
  char_at t (String.length text) h = Ok Ascii.zero /\
  (forall i, (String.length text < i)%nat -> char_at t i h = Fail EOob).
Proof.
  intros Ht. unfold char_at. rewrite Ht. cbn [rbind]. split; [by intros i c ->|]. split.
  - rewrite get_end by lia. by rewrite Nat.eqb_refl.
  - intros i Hi. rewrite get_end by lia. by rewrite (proj2 (Nat.eqb_neq i _)) by lia.
Qed.
