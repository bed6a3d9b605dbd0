(** Searching the standard output. *)
From Coq Require Import ZArith Ascii String Decimal DecimalString Lia.
From Flocq Require Import IEEE754.Binary IEEE754.Bits.
From Verif Require Import Base MDouble MPrint SpecPrint PPrint MTranscript SpecTranscript.
Local Open Scope string_scope.

(** * Strings as lists *)
Notation chars := list_ascii_of_string.
Lemma chars_app a b : chars (a ++ b) = (chars a ++ chars b)%list.
Proof. induction a as [|x a IH]; [reflexivity|]. change (x :: chars (a ++ b) = x :: (chars a ++ chars b)%list). by rewrite IH. Qed.
Lemma chars_inj a b : chars a = chars b -> a = b.
Proof. intros E. rewrite <-(string_of_list_ascii_of_string a), E. apply string_of_list_ascii_of_string. Qed.
Lemma chars_length a : length (chars a) = String.length a.
Proof. induction a as [|x a IH]; [reflexivity|]. cbn. by rewrite IH. Qed.
Lemma length_app a b : String.length (a ++ b) = (String.length a + String.length b)%nat.
Proof. by rewrite <-!chars_length, chars_app, app_length. Qed.
Lemma app_inj_l a x y : a ++ x = a ++ y -> x = y.
Proof. intros E. apply chars_inj. apply (f_equal chars) in E. rewrite !chars_app in E. by apply app_inv_head in E. Qed.
Lemma app_inj_length a x a' y : a ++ x = a' ++ y -> String.length a = String.length a' -> a = a' /\ x = y.
Proof.
  intros E L. apply (f_equal chars) in E. rewrite !chars_app in E.
  apply app_inj_1 in E; [|by rewrite !chars_length]. destruct E as [E1 E2]. split; by apply chars_inj.
Qed.

(** * Characters *)
Fixpoint has_char (c : ascii) (s : string) : bool :=
  match s with EmptyString => false | String a s => (a =? c)%char || has_char c s end.
Lemma has_app c a b : has_char c (a ++ b) = has_char c a || has_char c b.
Proof. induction a as [|x a IH]; [reflexivity|]. change ((x =? c)%char || has_char c (a ++ b) = ((x =? c)%char || has_char c a) || has_char c b). by rewrite IH, orb_assoc. Qed.
Lemma has_spec c s : has_char c s = true <-> occurs c s.
Proof.
  split.
  - induction s as [|x s IH]; [discriminate|]. cbn. destruct (x =? c)%char eqn:E.
    + apply Ascii.eqb_eq in E as ->. intros _. by exists "", s.
    + intros H. destruct (IH H) as (a & b & ->). by exists (String x a), b.
  - intros (a & b & ->). rewrite has_app. cbn. rewrite Ascii.eqb_refl. by destruct (has_char c a).
Qed.
Lemma has_false c s : has_char c s = false <-> ~ occurs c s.
Proof. rewrite <-has_spec. by destruct (has_char c s). Qed.

(** * The search *)
Lemma behind_spec p s r : behind p s = Some r <-> s = p ++ r.
Proof.
  revert s. induction p as [|x p IH]; intros s; cbn.
  - split; [by intros [= ->]|by intros ->].
  - destruct s as [|y s]; [split; discriminate|]. destruct (x =? y)%char eqn:E.
    + apply Ascii.eqb_eq in E as ->. rewrite IH. split; [by intros ->|]. by intros [= ->].
    + split; [discriminate|]. intros [= -> _]. by rewrite Ascii.eqb_refl in E.
Qed.
Lemma not_occurs_nil c : ~ occurs c "".
Proof. intros (a & b & E). destruct a; discriminate. Qed.
Lemma lazy_some stop s g : lazy_group stop s = Some g ->
  ~ occurs end_of_line g /\ (exists b, s = g ++ stop ++ b) /\
  (forall g', (exists b, s = g' ++ stop ++ b) -> String.length g <= String.length g')%nat.
Proof.
  revert g. induction s as [|x s IH]; intros g; cbn [lazy_group]; destruct (behind stop _) as [r|] eqn:E.
  - intros [= <-]. apply behind_spec in E. split; [apply not_occurs_nil|]. split; [by exists r|]. cbn; lia.
  - discriminate.
  - intros [= <-]. apply behind_spec in E. split; [apply not_occurs_nil|]. split; [by exists r|]. cbn; lia.
  - destruct (x =? ascii_of_nat 10)%char eqn:En; [discriminate|]. destruct (lazy_group stop s) as [h|]; [|discriminate].
    intros [= <-]. destruct (IH h eq_refl) as (H1 & (b & Hb) & H2). split; [|split].
    + apply has_false. change ((x =? end_of_line)%char || has_char end_of_line h = false). apply has_false in H1. rewrite H1.
      unfold end_of_line. by rewrite En.
    + exists b. by rewrite Hb.
    + intros [|y g'] (b' & Eb).
      * exfalso. change (String x s = stop ++ b') in Eb. apply behind_spec in Eb. congruence.
      * injection Eb as -> Eb. cbn. apply le_n_S. apply H2. by exists b'.
Qed.
Lemma lazy_none stop s : lazy_group stop s = None -> forall g b, s = g ++ stop ++ b -> occurs end_of_line g.
Proof.
  induction s as [|x s IH]; cbn [lazy_group]; destruct (behind stop _) as [r|] eqn:E; try discriminate.
  - intros _ [|y g] b Eb; [|discriminate]. change ("" = stop ++ b) in Eb. apply behind_spec in Eb. congruence.
  - intros H [|y g] b Eb.
    + change (String x s = stop ++ b) in Eb. apply behind_spec in Eb. congruence.
    + injection Eb as -> Eb. destruct (y =? ascii_of_nat 10)%char eqn:En.
      * apply Ascii.eqb_eq in En as ->. by exists "", g.
      * destruct (lazy_group stop s) eqn:El; [discriminate|]. destruct (IH eq_refl g b Eb) as (a & c & ->). by exists (String y a), c.
Qed.

Lemma match_cons lit stop x s a g : match_at lit stop (String x s) (String x a) g <-> match_at lit stop s a g.
Proof.
  split; intros [H (b & E)]; (split; [exact H|]); exists b.
  - by injection E.
  - change (String x s = String x (a ++ lit ++ g ++ stop ++ b)). by rewrite E.
Qed.
Lemma match_first lit stop x s y a g : match_at lit stop (String x s) (String y a) g -> y = x.
Proof. intros [_ [b E]]. change (String x s = String y (a ++ lit ++ g ++ stop ++ b)) in E. congruence. Qed.
Lemma match_here lit stop s g : match_at lit stop s "" g <-> ~ occurs end_of_line g /\ exists r b, s = lit ++ r /\ r = g ++ stop ++ b.
Proof.
  split.
  - intros [H (b & E)]. split; [exact H|]. by exists (g ++ stop ++ b), b.
  - intros [H (r & b & -> & ->)]. split; [exact H|]. by exists b.
Qed.
(** No match starts here. *)
Lemma no_match_here lit stop s : match behind lit s with Some r => lazy_group stop r | None => None end = None ->
  forall g, ~ match_at lit stop s "" g.
Proof.
  intros H g Hm. apply match_here in Hm as (Hn & r & b & Es & Er). apply behind_spec in Es. rewrite Es in H.
  exact (Hn (lazy_none stop r H g b Er)).
Qed.
Lemma search_some lit stop s g : search lit stop s = Some g -> found lit stop s g.
Proof.
  assert (here : forall s g, match behind lit s with Some r => lazy_group stop r | None => None end = Some g -> found lit stop s g).
  { clear. intros s g H. destruct (behind lit s) as [r|] eqn:E; [|discriminate]. apply behind_spec in E.
    apply lazy_some in H as (H1 & (b & Hb) & H2). exists "". split; [|split].
    - apply match_here. split; [exact H1|]. by exists r, b.
    - cbn; lia.
    - intros g' Hm. apply match_here in Hm as (_ & r' & b' & E1 & E2). rewrite E in E1. apply app_inj_l in E1 as <-.
      apply H2. by exists b'. }
  induction s as [|x s IH]; cbn [search].
  - destruct (match behind lit "" with Some r => _ | None => _ end) eqn:E; [|discriminate]. intros [= <-]. by apply here.
  - destruct (match behind lit (String x s) with Some r => _ | None => _ end) eqn:E; [intros [= <-]; by apply here|].
    intros H. destruct (IH H) as (a & Hm & Hl & Hs). exists (String x a). split; [apply match_cons; exact Hm|]. split.
    + intros [|y a'] g' Hm'; [exfalso; exact (no_match_here _ _ _ E g' Hm')|].
      assert (y = x) as -> by exact (match_first _ _ _ _ _ _ _ Hm').
      cbn. apply le_n_S. exact (Hl a' g' (proj1 (match_cons _ _ _ _ _ _) Hm')).
    + intros g' Hm'. exact (Hs g' (proj1 (match_cons _ _ _ _ _ _) Hm')).
Qed.
Lemma search_none lit stop s : search lit stop s = None -> forall a g, ~ match_at lit stop s a g.
Proof.
  induction s as [|x s IH]; cbn [search].
  - destruct (match behind lit "" with Some r => _ | None => _ end) eqn:E; [discriminate|]. intros _ [|y a] g Hm.
    + exact (no_match_here _ _ _ E g Hm).
    + destruct Hm as [_ [b E']]. discriminate.
  - destruct (match behind lit (String x s) with Some r => _ | None => _ end) eqn:E; [discriminate|]. intros H [|y a] g Hm.
    + exact (no_match_here _ _ _ E g Hm).
    + assert (y = x) as -> by exact (match_first _ _ _ _ _ _ _ Hm). exact (IH H a g (proj1 (match_cons _ _ _ _ _ _) Hm)).
Qed.
Lemma found_inj lit stop s g h : found lit stop s g -> found lit stop s h -> g = h.
Proof.
  intros (a & Hm & Hl & Hs) (a' & Hm' & Hl' & Hs').
  pose proof (Hl _ _ Hm') as L1. pose proof (Hl' _ _ Hm) as L2. pose proof Hm as (_ & b & E). pose proof Hm' as (_ & b' & E').
  rewrite E in E'. apply app_inj_length in E' as [<- E']; [|lia]. apply app_inj_l in E'.
  pose proof (Hs _ Hm') as L3. pose proof (Hs' _ Hm) as L4. apply app_inj_length in E' as [-> _]; [reflexivity|lia].
Qed.
Lemma search_found lit stop s g : search lit stop s = Some g <-> found lit stop s g.
Proof.
  split; [apply search_some|]. intros H. destruct (search lit stop s) as [h|] eqn:E.
  - f_equal. apply search_some in E. by apply (found_inj lit stop s).
  - destruct H as (a & Hm & _). by destruct (search_none _ _ _ E a g).
Qed.
Lemma search_not_found lit stop s : search lit stop s = None <-> forall a g, ~ match_at lit stop s a g.
Proof.
  split; [apply search_none|]. intros H. destruct (search lit stop s) as [h|] eqn:E; [|reflexivity].
  apply search_some in E as (a & Hm & _). by destruct (H a h).
Qed.

(** * A text made of pieces *)
Lemma put_app l l' : put (l ++ l')%list = put l ++ put l'.
Proof. induction l as [|x l IH]; [reflexivity|]. change (x ++ put (l ++ l')%list = (x ++ put l) ++ put l'). by rewrite IH, append_assoc. Qed.
Lemma put_cons x l : put (x :: l) = x ++ put l.
Proof. reflexivity. Qed.

(** A text split at a character: the split of a piece *)
Lemma app_split c (x y a b : string) : x ++ y = a ++ String c b ->
  (exists w, x = a ++ String c w /\ b = w ++ y) \/ (exists u, y = u ++ String c b /\ a = x ++ u).
Proof.
  revert a. induction x as [|k x IH]; intros a E.
  - right. by exists a.
  - destruct a as [|k' a].
    + injection E as -> E. left. exists x. split; [reflexivity|by symmetry].
    + injection E as -> E. destruct (IH a E) as [(w & -> & ->)|(u & -> & ->)].
      * left. by exists w.
      * right. by exists u.
Qed.
Lemma put_split c l a b : put l = a ++ String c b ->
  exists l1 x l2 u w, l = (l1 ++ x :: l2)%list /\ x = u ++ String c w /\ a = put l1 ++ u /\ b = w ++ put l2.
Proof.
  revert a. induction l as [|x l IH]; intros a E.
  - destruct a; discriminate.
  - rewrite put_cons in E. apply app_split in E as [(w & -> & ->)|(u & E & ->)].
    + exists [], (a ++ String c w), l, a, w. done.
    + destruct (IH u E) as (l1 & y & l2 & u' & w & -> & -> & -> & ->).
      exists (x :: l1), (u' ++ String c w), l2, u', w. rewrite put_cons, append_assoc. done.
Qed.

(** No text that ends with [p] ends with [u], whatever stands before. *)
Definition clashes (p u : string) : Prop := forall a a', a ++ p <> a' ++ u.
(** A colon in [x] is never the one of [p], colon. *)
Definition quiet (p x : string) : Prop := forall u w, x = u ++ String ":" w -> clashes p u.

Lemma search_pieces p q c stop pre g post l1 l2 :
  Forall (quiet p) l1 -> has_char ":" pre = false -> has_char ":" p = false -> has_char ":" (q ++ g ++ String c stop ++ post) = false ->
  has_char end_of_line g = false -> has_char c g = false ->
  search (p ++ String ":" q) (String c stop) (put (l1 ++ (pre ++ p ++ String ":" q ++ g ++ String c stop ++ post) :: l2)) = Some g.
Proof.
  intros Hq Hpre Hp Hpost Hnl Hc. set (t := pre ++ p ++ String ":" q ++ g ++ String c stop ++ post).
  apply search_found. exists (put l1 ++ pre).
  assert (Et : put (l1 ++ t :: l2) = (put l1 ++ pre) ++ (p ++ String ":" q) ++ g ++ String c stop ++ (post ++ put l2)).
  { rewrite put_app, put_cons. unfold t. rewrite !append_assoc. reflexivity. }
  split; [|split].
  - split; [by apply has_false|]. exists (post ++ put l2). exact Et.
  - intros a' g' [_ (b' & E)]. rewrite append_assoc, <-(append_assoc a' p) in E.
    change (String ":" q ++ g' ++ String c stop ++ b') with (String ":" (q ++ g' ++ String c stop ++ b')) in E.
    pose proof E as Es. apply put_split in Es as (m1 & x & m2 & u & w & El & Ex & Ea & Eb).
    assert (Hlen : (String.length (a' ++ p) = String.length (put m1 ++ u))%nat) by by rewrite Ea.
    rewrite !length_app in Hlen. rewrite length_app.
    (* where is the piece x? *)
    destruct (le_lt_dec (length l1) (length m1)) as [L|L].
    + assert (exists m, m1 = (l1 ++ m)%list /\ (t :: l2 = m ++ x :: m2)%list) as (m & -> & Em).
      { exists (drop (length l1) m1). pose proof (f_equal (take (length l1)) El) as E1. pose proof (f_equal (drop (length l1)) El) as E2.
        rewrite take_app in E1. rewrite take_app_le in E1 by lia. rewrite drop_app in E2. rewrite drop_app_le in E2 by lia.
        split; [|exact E2]. rewrite E1 at 1. by rewrite take_drop. }
      rewrite put_app, length_app in Hlen. destruct m as [|y m].
      * injection Em as <- <-. cbn in Hlen.
        assert (String.length u = String.length pre + String.length p)%nat; [|lia].
        unfold t in Ex. rewrite <-(append_assoc pre p) in Ex.
        change (String ":" q ++ g ++ String c stop ++ post) with (String ":" (q ++ g ++ String c stop ++ post)) in Ex.
        apply app_split in Ex as [(w' & E1 & _)|(u' & E1 & E2)].
        { exfalso. assert (has_char ":" (pre ++ p) = true) as Ht by (rewrite E1, has_app; cbn; apply orb_true_r).
          rewrite has_app, Hpre, Hp in Ht. discriminate. }
        destruct u' as [|k u'].
        { rewrite E2, append_nil, length_app. reflexivity. }
        exfalso. injection E1 as <- E1. assert (has_char ":" (q ++ g ++ String c stop ++ post) = true) as Ht
          by (rewrite E1, has_app; cbn; apply orb_true_r). congruence.
      * injection Em as <- Em. rewrite put_cons, length_app in Hlen. unfold t in Hlen. rewrite !length_app in Hlen. lia.
    + exfalso. assert (x ∈ l1) as Hx.
      { pose proof (f_equal (fun l => l !! length m1) El) as E1. cbn beta in E1. rewrite lookup_app_l in E1 by lia.
        rewrite list_lookup_middle in E1 by reflexivity. by apply elem_of_list_lookup_2 in E1. }
      rewrite Forall_forall in Hq. exact (Hq x Hx u w Ex a' (put m1) Ea).
  - intros g' [_ (b' & E)]. rewrite Et in E. apply app_inj_l, app_inj_l in E.
    destruct (le_lt_dec (String.length g) (String.length g')) as [L|L]; [exact L|exfalso].
    symmetry in E. change (String c stop ++ b') with (String c (stop ++ b')) in E. symmetry in E.
    apply app_split in E as [(w & E1 & _)|(u & E1 & ->)].
    + rewrite E1, has_app in Hc. cbn in Hc. rewrite Ascii.eqb_refl, orb_true_r in Hc. discriminate.
    + rewrite length_app in L. lia.
Qed.

(** * Deciding that a piece is quiet *)
(** A piece of text: written out, or something of which only is known that it has
    no colon *)
Inductive part := Lit (s : string) | Any (s : string).
Definition part_text (x : part) : string := match x with Lit s | Any s => s end.
Definition part_ok (x : part) : Prop := match x with Lit _ => True | Any s => has_char ":" s = false end.
(** Two reversed texts differ in a character both have. *)
Fixpoint differ (p acc : list ascii) : bool :=
  match p, acc with x :: p, y :: acc => negb (x =? y)%char || differ p acc | _, _ => false end.
Lemma differ_sound p acc a b : differ p acc = true -> (p ++ a)%list <> (acc ++ b)%list.
Proof.
  revert acc. induction p as [|x p IH]; intros [|y acc]; cbn; try discriminate. intros H [= -> E].
  rewrite Ascii.eqb_refl in H. exact (IH acc H E).
Qed.
Fixpoint scan_lit (p acc : list ascii) (s : string) : option (list ascii) :=
  match s with
  | EmptyString => Some acc
  | String c s => if (c =? ":")%char then if differ p acc then scan_lit p (c :: acc) s else None else scan_lit p (c :: acc) s
  end.
Fixpoint scan (p acc : list ascii) (l : list part) : bool :=
  match l with
  | [] => true
  | Lit s :: l => match scan_lit p acc s with Some acc => scan p acc l | None => false end
  | Any _ :: l => scan p [] l
  end.
(** [acc] are the last characters of [x]. *)
Definition ends (x : string) (acc : list ascii) : Prop := exists b, rev (chars x) = (acc ++ b)%list.
Lemma ends_clash p x acc : ends x acc -> differ (rev (chars p)) acc = true -> clashes p x.
Proof.
  intros [b Eb] H a a' E. apply (f_equal (fun s => rev (chars s))) in E. rewrite !chars_app, !rev_app_distr, Eb, <-app_assoc in E.
  exact (differ_sound _ _ _ _ H E).
Qed.
Lemma scan_lit_sound p x acc s acc' : ends x acc -> scan_lit (rev (chars p)) acc s = Some acc' ->
  ends (x ++ s) acc' /\ forall u w, s = u ++ String ":" w -> clashes p (x ++ u).
Proof.
  revert x acc. induction s as [|c s IH]; intros x acc Hx H.
  - injection H as <-. rewrite append_nil. split; [exact Hx|]. by intros [|? ?] w.
  - cbn in H.
    assert (Hc : ends (x ++ String c "") (c :: acc)).
    { destruct Hx as [b Eb]. exists b. rewrite chars_app, rev_app_distr, Eb. reflexivity. }
    assert (Hs : scan_lit (rev (chars p)) (c :: acc) s = Some acc' /\ (c = ":"%char -> clashes p x)).
    { destruct (c =? ":")%char eqn:Ec.
      - destruct (differ _ acc) eqn:Ed; [|discriminate]. split; [exact H|]. intros _. by apply (ends_clash p x acc).
      - split; [exact H|]. intros ->. discriminate. }
    destruct Hs as [Hs Hcol]. destruct (IH _ _ Hc Hs) as [H1 H2]. rewrite append_assoc in H1. split; [exact H1|].
    intros [|k u] w E.
    + injection E as -> E. rewrite append_nil. by apply Hcol.
    + injection E as -> E. pose proof (H2 u w E) as H3. rewrite append_assoc in H3. exact H3.
Qed.
Lemma scan_sound p l x acc : ends x acc -> scan (rev (chars p)) acc l = true -> Forall part_ok l ->
  forall u w, put (part_text <$> l) = u ++ String ":" w -> clashes p (x ++ u).
Proof.
  revert x acc. induction l as [|[s|s] l IH]; intros x acc Hx H Hok u w E.
  - by destruct u.
  - rewrite fmap_cons, put_cons in E. cbn in H. destruct (scan_lit _ acc s) as [acc'|] eqn:Es; [|discriminate].
    apply Forall_cons in Hok as [_ Hok]. destruct (scan_lit_sound p x acc s acc' Hx Es) as [H1 H2].
    apply app_split in E as [(w' & E & _)|(u' & E & ->)]; [exact (H2 u w' E)|].
    rewrite <-append_assoc. exact (IH _ _ H1 H Hok u' w E).
  - rewrite fmap_cons, put_cons in E. apply Forall_cons in Hok as [Ha Hok]. cbn in Ha.
    apply app_split in E as [(w' & E & _)|(u' & E & ->)].
    + cbn in E. rewrite E, has_app in Ha. cbn in Ha. by rewrite orb_true_r in Ha.
    + rewrite <-append_assoc. apply (IH (x ++ s) [] (ex_intro _ _ eq_refl) H Hok u' w E).
Qed.
Lemma quiet_parts p l : scan (rev (chars p)) [] l = true -> Forall part_ok l -> quiet p (put (part_text <$> l)).
Proof.
  intros H Hok u w E. exact (scan_sound p l "" [] (ex_intro _ _ eq_refl) H Hok u w E).
Qed.

(** * The characters of numbers *)
Definition safe (c : ascii) (s : string) : Prop := has_char c s = false.
Lemma digit_not c d : is_digit d -> as_digit c = None -> (digit d =? c)%char = false.
Proof.
  intros Hd Hc. apply Ascii.eqb_neq. intros E. rewrite <-E, (as_digit_digit d Hd) in Hc. discriminate.
Qed.
