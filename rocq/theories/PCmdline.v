(** Proofs about the command line: which ones are accepted. *)
From Coq Require Import ZArith NArith Ascii String Lia.
From stdpp Require Import list.
From Flocq Require Import IEEE754.Binary IEEE754.Bits.
From Verif Require Import MCmdline SpecPrint SpecCmdline MTranscript.
Local Open Scope string_scope.

(** * Strings *)
Lemma app_cons a p q : String a p ++ q = String a (p ++ q).
Proof. done. Qed.
Lemma app_nil p : p ++ "" = p.
Proof. induction p as [|c p IH]; [done|]. by rewrite app_cons, IH. Qed.
Lemma app_app p q r : (p ++ q) ++ r = p ++ (q ++ r).
Proof. induction p as [|c p IH]; [done|]. by rewrite !app_cons, IH. Qed.
Lemma prefix_spec p s : String.prefix p s = true <-> begins p s.
Proof.
  revert s. induction p as [|a p IH]; intros s.
  - split; [intros _; by exists s|by destruct s].
  - destruct s as [|b s]; cbn [String.prefix].
    + split; [done|]. intros [q Hq]. done.
    + destruct (ascii_dec a b) as [->|Hne].
      * rewrite IH. split; intros [q Hq]; exists q; [by rewrite Hq|]. rewrite app_cons in Hq. by injection Hq.
      * split; [done|]. intros [q Hq]. rewrite app_cons in Hq. congruence.
Qed.
Lemma behind_spec p s w : behind p s = Some w <-> s = p ++ w.
Proof.
  revert s. induction p as [|a p IH]; intros s.
  - cbn. split; [by intros [= ->]|by intros ->].
  - destruct s as [|b s]; cbn [behind]; [done|]. destruct (Ascii.eqb_spec a b) as [->|Hne].
    + rewrite IH, app_cons. split; [by intros ->|]. intros H. by injection H.
    + rewrite app_cons. split; [done|congruence].
Qed.
Lemma behind_none p s : behind p s = None <-> ~ begins p s.
Proof.
  destruct (behind p s) as [w|] eqn:E.
  - apply behind_spec in E. split; [done|]. intros H. exfalso. apply H. by exists w.
  - split; [|done]. intros _ [w Hw]. assert (behind p s = Some w) by (by apply behind_spec). congruence.
Qed.
Lemma no_equals_nil : no_equals "".
Proof. by intros [|? ?] q. Qed.
Lemma no_equals_cons c s : no_equals (String c s) <-> c <> "="%char /\ no_equals s.
Proof.
  split.
  - intros H. split; [intros ->; by apply (H "" s)|]. intros p q ->. by apply (H (String c p) q).
  - intros [Hc Hs] [|d p] q; [intros H; by injection H|]. rewrite app_cons. intros [= -> E]. by apply (Hs p q).
Qed.
Lemma split_none s : no_equals s -> split_name s = (s, None).
Proof.
  induction s as [|c s IH]; [done|]. intros [Hc Hs]%no_equals_cons. cbn [split_name].
  destruct (Ascii.eqb_spec c "="); [done|]. by rewrite IH.
Qed.
Lemma split_some n t : no_equals n -> split_name (n ++ "=" ++ t) = (n, Some t).
Proof.
  induction n as [|c n IH]; [done|]. intros [Hc Hs]%no_equals_cons. rewrite app_cons. cbn [split_name].
  destruct (Ascii.eqb_spec c "="); [done|]. by rewrite IH.
Qed.
Lemma split_inv s n a : split_name s = (n, a) -> no_equals n /\ s = n ++ match a with Some t => "=" ++ t | None => "" end.
Proof.
  revert n a. induction s as [|c s IH]; intros n a; cbn [split_name].
  - intros [= <- <-]. split; [apply no_equals_nil|done].
  - destruct (Ascii.eqb_spec c "=") as [->|Hc].
    + intros [= <- <-]. split; [apply no_equals_nil|done].
    + destruct (split_name s) as [n' a'] eqn:E. intros [= <- <-]. destruct (IH _ _ eq_refl) as [H1 H2].
      split; [by apply no_equals_cons|]. rewrite app_cons. by rewrite H2 at 1.
Qed.
Lemma begins_no_equals p s : begins p s -> no_equals s -> no_equals p.
Proof.
  intros [q ->] H a b ->. apply (H a (b ++ q)). by rewrite !app_app.
Qed.
Lemma table_no_equals r : r ∈ table -> no_equals (r_name r).
Proof.
  intros Hr. assert (Forall (fun r => split_name (r_name r) = (r_name r, None)) table) as Hf.
  { repeat (apply Forall_cons; split; [reflexivity|]). by apply Forall_nil. }
  rewrite Forall_forall in Hf. specialize (Hf r Hr). apply split_inv in Hf as [? _]. done.
Qed.

(** * Names *)
Lemma table_names r r' : r ∈ table -> r' ∈ table -> r_name r = r_name r' -> r = r'.
Proof.
  intros [i Hi]%elem_of_list_lookup [j Hj]%elem_of_list_lookup E.
  assert (NoDup (r_name <$> table)) as Hd by (apply (bool_decide_unpack _); vm_compute; exact I).
  assert (i = j); [|congruence]. apply (NoDup_lookup _ i j (r_name r) Hd); rewrite list_lookup_fmap.
  - by rewrite Hi.
  - rewrite Hj. cbn. by rewrite E.
Qed.
Lemma find_in {A} (f : A -> bool) l a : find f l = Some a -> a ∈ l /\ f a = true.
Proof. intros [H1 H2]%find_some. split; [by apply elem_of_list_In|done]. Qed.
Lemma find_not {A} (f : A -> bool) l a : find f l = None -> a ∈ l -> f a = false.
Proof. intros H Ha. apply (find_none f l H). by apply elem_of_list_In. Qed.
Lemma filter_elem {A} (f : A -> bool) l a : a ∈ List.filter f l <-> a ∈ l /\ f a = true.
Proof. rewrite !elem_of_list_In. apply filter_In. Qed.
Lemma find_option_found p r : find_option p = Found r <-> r ∈ table /\ names p r.
Proof.
  unfold find_option. destruct (find _ table) as [r0|] eqn:E.
  - apply find_in in E as [Hr0 E]. apply String.eqb_eq in E. split.
    + intros [= <-]. split; [done|]. by left.
    + intros [Hr [->|(Hb&Hu&_)]].
      * f_equal. by apply table_names.
      * f_equal. apply Hu; [done|]. exists "". by rewrite E, app_nil.
  - assert (Hno : forall r, r ∈ table -> r_name r <> p).
    { intros r' Hr' Hp. apply (find_not _ _ r') in E; [|done]. cbn in E. apply String.eqb_neq in E. done. }
    destruct (List.filter _ table) as [|r1 [|r2 l]] eqn:F.
    + split; [done|]. intros [Hr [->|(Hb&_)]]; [by destruct (Hno r)|].
      assert (r ∈ (nil : list row)) as Hin; [|by apply elem_of_nil in Hin]. rewrite <- F. apply filter_elem. split; [done|]. by apply prefix_spec.
    + assert (Hr1 : r1 ∈ table /\ begins p (r_name r1)).
      { assert (r1 ∈ [r1]) as Hin by left. rewrite <- F in Hin. apply filter_elem in Hin as [? ?]. split; [done|]. by apply prefix_spec. }
      assert (Hall : forall r', r' ∈ table -> begins p (r_name r') -> r' = r1).
      { intros r' Hr' Hb. apply elem_of_list_singleton. rewrite <- F. apply filter_elem. split; [done|]. by apply prefix_spec. }
      destruct (String.prefix p "hpx:") eqn:Eh.
      * split; [done|]. apply prefix_spec in Eh. intros [Hr [->|(_&_&H)]]; [by destruct (Hno r)|done].
      * split.
        -- intros [= <-]. split; [apply Hr1|]. right. split; [apply Hr1|]. split; [done|]. rewrite <- prefix_spec. by rewrite Eh.
        -- intros [Hr [->|(Hb&_&_)]]; [by destruct (Hno r)|]. f_equal. symmetry. by apply Hall.
    + split; [done|]. intros [Hr [->|(Hb&Hu&_)]]; [by destruct (Hno r)|]. exfalso.
      assert (r1 ∈ table /\ begins p (r_name r1)) as [H1 B1].
      { assert (r1 ∈ r1 :: r2 :: l) as Hin by left. rewrite <- F in Hin. apply filter_elem in Hin as [? ?]. split; [done|]. by apply prefix_spec. }
      assert (r2 ∈ table /\ begins p (r_name r2)) as [H2 B2].
      { assert (r2 ∈ r1 :: r2 :: l) as Hin by (right; left). rewrite <- F in Hin. apply filter_elem in Hin as [? ?]. split; [done|]. by apply prefix_spec. }
      assert (r1 = r2) as ->. { rewrite (Hu r1 H1 B1), (Hu r2 H2 B2). done. }
      assert (NoDup (List.filter (fun r => String.prefix p (r_name r)) table)) as Hd.
      { apply NoDup_ListNoDup, List.NoDup_filter, NoDup_ListNoDup. apply (NoDup_fmap_1 r_name). apply (bool_decide_unpack _). vm_compute. exact I. }
      rewrite F in Hd. apply NoDup_cons in Hd as [Hd _]. apply Hd. left.
Qed.
Lemma find_option_not p : find_option p = NotFound <-> forall r, r ∈ table -> ~ begins p (r_name r).
Proof.
  unfold find_option. destruct (find _ table) as [r0|] eqn:E.
  - apply find_in in E as [Hr0 E]. apply String.eqb_eq in E. split; [done|]. intros H. exfalso. apply (H r0 Hr0).
    exists "". by rewrite E, app_nil.
  - split.
    + destruct (List.filter _ table) as [|r1 [|r2 l]] eqn:F; [|by destruct (String.prefix p "hpx:")|done].
      intros _ r Hr Hb. assert (r ∈ (nil : list row)) as Hin; [|by apply elem_of_nil in Hin].
      rewrite <- F. apply filter_elem. split; [done|]. by apply prefix_spec.
    + intros H. destruct (List.filter _ table) as [|r1 l] eqn:F; [done|]. exfalso.
      assert (r1 ∈ r1 :: l) as Hin by left. rewrite <- F in Hin. apply filter_elem in Hin as [H1 H2]. apply (H r1 H1). by apply prefix_spec.
Qed.
Lemma names_no_equals p r : r ∈ table -> names p r -> no_equals p.
Proof.
  intros Hr [->|(Hb&_)]; [by apply table_no_equals|]. eapply begins_no_equals; [exact Hb|]. by apply table_no_equals.
Qed.
