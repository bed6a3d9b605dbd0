(** Proofs about the command line: values, and which command lines are accepted. *)
From Coq Require Import ZArith NArith Ascii String Lia.
From stdpp Require Import list.
From Flocq Require Import IEEE754.Binary IEEE754.Bits.
From Verif Require Import MCmdline SpecPrint SpecCmdline MTranscript PCmdline.
Local Open Scope string_scope.

(** * Values *)
Lemma digit_spec c : as_digit c = (if ((48 <=? N_of_ascii c) && (N_of_ascii c <=? 57))%N%bool then Some (Z.of_N (N_of_ascii c - 48)) else None).
Proof.
  unfold as_digit. destruct (N.leb_spec 48 (N_of_ascii c)), (N.leb_spec (N_of_ascii c) 57); cbn [andb];
  destruct (Z.leb_spec 48 (Z.of_N (N_of_ascii c))), (Z.leb_spec (Z.of_N (N_of_ascii c)) 57); cbn [andb]; try lia; try done. f_equal. lia.
Qed.
Lemma read_decimal_spec s acc v n : read_decimal acc s = Some v <->
  read_digits (Z.of_N acc) n s = (Z.of_N v, (n + Z.of_nat (String.length s))%Z, "").
Proof.
  revert acc n. induction s as [|c s IH]; intros acc n; cbn [read_decimal read_digits String.length].
  - split; [intros [= ->]; f_equal; f_equal; lia|]. intros [= H _]. f_equal. lia.
  - rewrite digit_spec. destruct (_ && _)%bool.
    + replace (10 * Z.of_N acc + Z.of_N (N_of_ascii c - 48))%Z with (Z.of_N (10 * acc + (N_of_ascii c - 48))) by lia.
      rewrite (IH _ (n + 1)%Z). replace (n + 1 + Z.of_nat (String.length s))%Z with (n + Z.of_nat (S (String.length s)))%Z by lia. done.
    + split; [done|]. intros [= _ _].
Qed.
Lemma read_digits_count s m n v k : read_digits m n s = (v, k, "") -> k = (n + Z.of_nat (String.length s))%Z.
Proof.
  revert m n. induction s as [|c s IH]; intros m n; cbn [read_digits String.length]; [intros [= _ <-]; lia|].
  destruct (as_digit c); [|done]. intros H%IH. lia.
Qed.
Lemma decimal_spec s v : decimal s v <-> s <> "" /\ read_decimal 0 s = Some v.
Proof.
  split.
  - intros (n&Hn&E). pose proof (read_digits_count _ _ _ _ _ E) as ->. split; [intros ->; cbn in Hn; lia|].
    by apply (read_decimal_spec s 0 v 0).
  - intros [Hs E]. exists (Z.of_nat (String.length s)). split; [destruct s; [done|cbn; lia]|].
    apply (read_decimal_spec s 0 v 0) in E. cbn [Z.of_N] in E. rewrite E. do 2 f_equal. 
Qed.
Lemma decimal_digit s v : decimal s v -> exists c r, s = String c r /\ c <> "-"%char /\ c <> "+"%char.
Proof.
  intros [Hs E]%decimal_spec. destruct s as [|c r]; [done|]. exists c, r. split; [done|]. split; intros ->; cbn in E; done.
Qed.
Lemma sign_plain c r : c <> "-"%char -> c <> "+"%char -> split_sign (String c r) = (false, String c r).
Proof. intros H1 H2. cbn [split_sign]. destruct (Ascii.eqb_spec c "-"); [done|]. by destruct (Ascii.eqb_spec c "+"). Qed.
Lemma cast_unsigned_spec strtod s n : cast_unsigned s = Some n <-> means strtod TUnsigned s (VUnsigned n).
Proof.
  assert (Hplain : forall sign d, sign ∈ [""; "+"] -> decimal d n -> (n < 2 ^ 64)%N -> cast_unsigned (sign ++ d) = Some n).
  { intros sign d Hs Hd Hlt. destruct (decimal_digit _ _ Hd) as (c&r&->&H1&H2). apply decimal_spec in Hd as [_ Hd].
    apply elem_of_cons in Hs as [->|Hs]; [|apply elem_of_list_singleton in Hs as ->].
    - change ("" ++ String c r) with (String c r). unfold cast_unsigned. rewrite sign_plain by done.
      rewrite Hd. destruct (N.ltb_spec n (2 ^ 64)); [done|lia].
    - change ("+" ++ String c r) with (String "+" (String c r)). unfold cast_unsigned.
      change (split_sign (String "+" (String c r))) with (false, String c r). cbv iota beta. rewrite Hd. destruct (N.ltb_spec n (2 ^ 64)); [done|lia]. }
  split.
  - unfold cast_unsigned. intros E.
    assert (exists minus d, split_sign s = (minus, d) /\
      (minus = true -> s = "-" ++ d) /\ (minus = false -> exists sign, sign ∈ [""; "+"] /\ s = sign ++ d)) as (minus&d&Hm&Hmt&Hmf).
    { destruct s as [|c s]; [exists false, ""; split_and!; [done|done|]; intros _; exists ""; split; [left|done]|].
      destruct (decide (c = "-"%char)) as [->|H1]; [exists true, s; done|].
      destruct (decide (c = "+"%char)) as [->|H2].
      - exists false, s. split_and!; [done|done|]. intros _. exists "+". split; [right; left|done].
      - exists false, (String c s). split_and!; [|done|intros _; exists ""; split; [left|done]].
        unfold split_sign. destruct (Ascii.eqb_spec c "-"); [done|]. by destruct (Ascii.eqb_spec c "+"). }
    rewrite Hm in E. destruct d as [|c d]; [done|]. destruct (read_decimal 0 (String c d)) as [v|] eqn:Ed; [|done].
    destruct (N.ltb_spec v (2 ^ 64)) as [Hv|]; [|done].
    assert (Hdec : decimal (String c d) v) by (by apply decimal_spec).
    destruct minus.
    + rewrite (Hmt eq_refl). assert (En : n = ((2 ^ 64 - v) mod 2 ^ 64)%N) by congruence. clear E Hplain. subst n. destruct (decide (v = 0%N)) as [->|Hv0].
      * change ((2 ^ 64 - 0) mod 2 ^ 64)%N with 0%N. by constructor.
      * rewrite N.mod_small by (apply N.sub_lt; [by apply N.lt_le_incl|by apply N.neq_0_lt_0]). constructor; [done|]. split; [by apply N.neq_0_lt_0|done].
    + injection E as <-. destruct (Hmf eq_refl) as (sign&Hsign&->). by constructor.
  - intros H. assert (exists t w, t = TUnsigned /\ w = VUnsigned n /\ means strtod t s w) as (t&w&Et&Ew&Hw) by (by exists TUnsigned, (VUnsigned n)).
    clear H. destruct Hw as [sign d m Hs Hd Hlt|d m Hd Hlt|d Hd| | | |]; try discriminate Et.
    + assert (n = m) as -> by congruence. by apply Hplain.
    + assert (n = (2 ^ 64 - m)%N) as -> by congruence. clear Hplain Ew.
      change ("-" ++ d) with (String "-" d). unfold cast_unsigned. change (split_sign (String "-" d)) with (true, d).
      destruct (decimal_digit _ _ Hd) as (c&r&->&_). apply decimal_spec in Hd as [_ Hd]. cbv iota beta. rewrite Hd.
      destruct (N.ltb_spec m (2 ^ 64)) as [_|Hm]; [|exfalso; apply (N.lt_irrefl m); by apply (N.lt_le_trans _ _ _ (proj2 Hlt))].
      f_equal. apply N.mod_small. apply N.sub_lt; [apply N.lt_le_incl; apply Hlt|apply Hlt].
    + assert (n = 0%N) as -> by congruence.
      change ("-" ++ d) with (String "-" d). unfold cast_unsigned. change (split_sign (String "-" d)) with (true, d).
      destruct (decimal_digit _ _ Hd) as (c&r&->&_). apply decimal_spec in Hd as [_ Hd]. cbv iota beta. rewrite Hd. done.
Qed.

Lemma spelled_lower s : spelled s (lower_all s).
Proof.
  induction s as [|c s IH]; [constructor|]. cbn [lower_all]. unfold lower.
  destruct (N.leb_spec 65 (N_of_ascii c)), (N.leb_spec (N_of_ascii c) 90); cbn [andb]; by constructor.
Qed.
Lemma lower_spelled s t : spelled s t -> lower_all t = t -> lower_all s = t.
Proof.
  induction 1 as [|c s t H IH|c s t Hc H IH]; cbn [lower_all]; [done| |]; intros [= E1 E2].
  - by rewrite E1, IH.
  - rewrite IH by done. f_equal. unfold lower. destruct (N.leb_spec 65 (N_of_ascii c)), (N.leb_spec (N_of_ascii c) 90); try lia. done.
Qed.
Lemma cast_bool_spec strtod s b : cast_bool s = Some b <-> means strtod TBool s (VBool b).
Proof.
  split.
  - unfold cast_bool. pose proof (spelled_lower s) as Hs. set (t := lower_all s) in *. clearbody t.
    assert (Ht : forall x, (t =? x) = true -> t = x) by (intros x; apply String.eqb_eq).
    repeat match goal with |- context [t =? ?x] => destruct (t =? x) eqn:?E end; cbn [orb]; intros [= <-];
    repeat match goal with H : (t =? _) = true |- _ => apply Ht in H end; subst;
    (eapply means_true || eapply means_false); try exact Hs; repeat first [left|right].
  - inversion 1 as [| | |s' t Ht Hs|s' t Ht Hs| |]; subst; unfold cast_bool;
      repeat (apply elem_of_cons in Ht as [->|Ht]; [by rewrite (lower_spelled _ _ Hs eq_refl)|]); by apply elem_of_nil in Ht.
Qed.
Lemma cast_spec strtod t s v : cast strtod t s = Some v <-> means strtod t s v.
Proof.
  destruct t; cbn [cast].
  - split.
    + destruct (cast_unsigned s) as [n|] eqn:E; [|done]. intros [= <-]. by apply cast_unsigned_spec.
    + intros H. assert (exists n, v = VUnsigned n) as [n ->] by (inversion H; eauto). apply cast_unsigned_spec in H. by rewrite H.
  - split.
    + destruct (cast_bool s) as [n|] eqn:E; [|done]. intros [= <-]. by apply cast_bool_spec.
    + intros H. assert (exists n, v = VBool n) as [n ->] by (inversion H; eauto). apply cast_bool_spec in H. by rewrite H.
  - split; [intros [= <-]; constructor|by inversion 1].
  - split; [destruct (strtod s) eqn:E; [|done]; intros [= <-]; by constructor|]. inversion 1 as [| | | | | |? ? E]; subst. by rewrite E.
  - split; [done|by inversion 1].
Qed.

(** * Command lines *)
Lemma given_spec m name : given m name = true <-> name ∈ m.*1.
Proof.
  unfold given. rewrite existsb_exists. split.
  - intros (p&Hp&E%String.eqb_eq). subst. apply elem_of_list_fmap. exists p. split; [done|]. by apply elem_of_list_In.
  - intros (p&->&Hp)%elem_of_list_fmap. exists p. split; [by apply elem_of_list_In|]. apply String.eqb_refl.
Qed.
Lemma store_spec r v m m' : store r v m = Parsed m' <-> exists x, v = Some x /\ r_name r ∉ m.*1 /\ m' = (r_name r, x) :: m.
Proof.
  unfold store. destruct (given m (r_name r)) eqn:E.
  - apply given_spec in E. split; [done|]. by intros (x&_&H&_).
  - assert (r_name r ∉ m.*1) by (rewrite <- given_spec; by rewrite E). destruct v as [x|].
    + split; [intros [= <-]; by exists x|]. by intros (y&[= ->]&_&->).
    + split; [done|]. by intros (x&?&_).
Qed.

Section Parse.
  Context (strtod : string -> option binary64) (accepts : string -> bool).
  Local Notation parse := (parse strtod accepts).
  Local Notation sets := (sets strtod accepts).

  Definition fresh (l m : list (string * value)) : Prop := NoDup l.*1 /\ forall x, x ∈ l.*1 -> x ∉ m.*1.
  Lemma fresh_nil m : fresh [] m.
  Proof. split; [constructor|]. intros x H. by apply elem_of_nil in H. Qed.
  Lemma fresh_cons p l m : fresh (p :: l) m <-> p.1 ∉ m.*1 /\ fresh l (p :: m).
  Proof.
    unfold fresh. rewrite !fmap_cons, NoDup_cons. split.
    - intros [[H1 H2] H3]. split; [apply H3; left|]. split; [done|]. intros x Hx [->|Hm]%elem_of_cons; [done|]. apply (H3 x); [by right|done].
    - intros (H1&H2&H3). split; [split; [|done]|].
      + intros Hx. apply (H3 _ Hx). left.
      + intros x [->|Hx]%elem_of_cons; [done|]. intros Hm. apply (H3 x Hx). by right.
  Qed.

  Lemma foreign_words w : w <> "--" -> (behind "--" w = None \/ exists name text, behind "--" w = Some (name ++ text) /\
      split_name (name ++ text) = (name, behind "=" text) /\ (text = "" \/ begins "=" text) /\ no_equals name /\ find_option name = NotFound) <-> foreign w.
  Proof.
    intros Hw. unfold foreign. split.
    - intros [H|(name&text&H1&H2&H3&H4&H5)]; (split; [done|]); [left; by apply behind_none|right].
      apply behind_spec in H1. exists name, text. split_and!; try done. by apply find_option_not.
    - intros [_ [H|(name&text&->&Hn&Ht&Hr)]]; [left; by apply behind_none|right]. exists name, text.
      split; [by apply behind_spec|]. split_and!; try done; [|by apply find_option_not].
      destruct Ht as [->|[q ->]]; [rewrite app_nil; by apply split_none|]. by apply split_some.
  Qed.

  Lemma parse_sets l args : sets l args -> forall m, fresh l m -> parse m args = Parsed (reverse l ++ m)%list.
  Proof.
    induction 1 as [|ws Hws|w l args Hf Ha Hs IH|p r text v l args Hr Hp Ht Hv Hs IH|p r text v l args Hr Hp Hv Hb Hs IH|p r l args Hr Hfl Hp Hs IH];
      intros m Hm.
    - done.
    - cbn [MCmdline.parse]. change ("--" =? "--") with true. cbv iota.
      assert (forallb accepts ws = true) as ->; [|done]. apply forallb_forall. intros x Hx. rewrite Forall_forall in Hws. apply Hws. by apply elem_of_list_In.
    - pose proof (proj1 Hf) as Hw. cbn [MCmdline.parse]. destruct (String.eqb_spec w "--") as [|_]; [done|].
      apply (foreign_words w Hw) in Hf as [->|(name&text&->&->&_&_&->)]; rewrite Ha; by apply IH.
    - apply fresh_cons in Hm as [Hm1 Hm2]. cbn [MCmdline.parse].
      assert (Hne : ("--" ++ p ++ "=" ++ text =? "--") = false) by (destruct p; done). rewrite Hne.
      rewrite (proj2 (behind_spec "--" _ (p ++ "=" ++ text)) eq_refl). rewrite split_some by (by eapply names_no_equals).
      rewrite (proj2 (find_option_found p r)) by done.
      destruct text as [|c text]; [done|].
      assert (E : store r (cast strtod (r_type r) (String c text)) m = Parsed ((r_name r, v) :: m)).
      { apply store_spec. exists v. split; [by apply cast_spec|done]. }
      specialize (IH ((r_name r, v) :: m) Hm2). rewrite reverse_cons, <- app_assoc. cbn [app].
      destruct (r_type r) eqn:Et; try (rewrite E; exact IH). by inversion Hv.
    - apply fresh_cons in Hm as [Hm1 Hm2]. cbn [MCmdline.parse].
      assert (Hp0 : p <> "").
      { intros ->. destruct Hp as [Hp|(_&Hu&_)].
        - assert (Forall (fun r => r_name r <> "") table) as Hf by (repeat (apply Forall_cons; split; [done|]); by apply Forall_nil).
          rewrite Forall_forall in Hf. by apply (Hf r Hr).
        - assert (Row "n-value" TUnsigned (Some (VUnsigned 4)) = r) as H1 by (apply Hu; [left|by eexists]).
          assert (Row "transposed" TBool (Some (VBool true)) = r) as H2 by (apply Hu; [right; left|by eexists]). congruence. }
      assert (Hne : ("--" ++ p =? "--") = false) by (destruct p; done). rewrite Hne.
      rewrite (proj2 (behind_spec "--" _ p) eq_refl). rewrite split_none by (by eapply names_no_equals).
      rewrite (proj2 (find_option_found p r)) by done.
      assert (String.prefix "-" text = false) as Hpre.
      { destruct (String.prefix "-" text) eqn:E; [|done]. by apply prefix_spec in E. }
      assert (E : store r (cast strtod (r_type r) text) m = Parsed ((r_name r, v) :: m)).
      { apply store_spec. exists v. split; [by apply cast_spec|done]. }
      specialize (IH ((r_name r, v) :: m) Hm2). rewrite reverse_cons, <- app_assoc. cbn [app].
      destruct (r_type r) eqn:Et; try (rewrite Hpre, E; exact IH). by inversion Hv.
    - apply fresh_cons in Hm as [Hm1 Hm2]. cbn [MCmdline.parse].
      assert (Hp0 : p <> "").
      { intros ->. destruct Hp as [Hp|(_&Hu&_)].
        - assert (Forall (fun r => r_name r <> "") table) as Hf by (repeat (apply Forall_cons; split; [done|]); by apply Forall_nil).
          rewrite Forall_forall in Hf. by apply (Hf r Hr).
        - assert (Row "n-value" TUnsigned (Some (VUnsigned 4)) = r) as H1 by (apply Hu; [left|by eexists]).
          assert (Row "transposed" TBool (Some (VBool true)) = r) as H2 by (apply Hu; [right; left|by eexists]). congruence. }
      assert (Hne : ("--" ++ p =? "--") = false) by (destruct p; done). rewrite Hne.
      rewrite (proj2 (behind_spec "--" _ p) eq_refl). rewrite split_none by (by eapply names_no_equals).
      rewrite (proj2 (find_option_found p r)) by done. rewrite Hfl.
      rewrite (proj2 (store_spec r (Some (VString "")) m _)) by (exists (VString ""); done).
      rewrite IH by done. by rewrite reverse_cons, <- app_assoc.
  Qed.

  Lemma sets_parse n : forall m args m', (length args <= n)%nat -> parse m args = Parsed m' ->
    exists l, sets l args /\ fresh l m /\ m' = (reverse l ++ m)%list.
  Proof.
    induction n as [|n IH]; intros m args m' Hn; (destruct args as [|a rest]; [intros [= <-]; exists []; split_and!; [constructor|apply fresh_nil|done]|]);
      cbn [length] in Hn; [lia|]. cbn [MCmdline.parse].
    destruct (String.eqb_spec a "--") as [->|Ha].
    { destruct (forallb accepts rest) eqn:E; [|done]. intros [= <-]. exists []. split_and!; [|apply fresh_nil|done].
      constructor. rewrite forallb_forall in E. apply Forall_forall. intros x Hx. apply E. by apply elem_of_list_In. }
    assert (Hforeign : foreign a -> (if accepts a then parse m rest else Rejected) = Parsed m' -> exists l, sets l (a :: rest) /\ fresh l m /\ m' = (reverse l ++ m)%list).
    { intros Hf. destruct (accepts a) eqn:Eacc; [|done]. intros E. destruct (IH m rest m') as (l&H1&H2&H3); [lia|done|].
      exists l. split_and!; [|done|done]. by apply sets_foreign. }
    destruct (behind "--" a) as [w|] eqn:Eb; [|apply Hforeign; split; [done|]; left; by apply behind_none].
    destruct (split_name w) as [name text] eqn:Es. destruct (find_option name) as [r| |] eqn:Ef; [| |done].
    2:{ apply Hforeign. split; [done|]. right. apply behind_spec in Eb. apply split_inv in Es as [Hn1 Hn2].
        exists name, (match text with Some t => "=" ++ t | None => "" end). rewrite <- Hn2. split_and!; [done|done| |by apply find_option_not].
        destruct text as [t|]; [right; by exists t|by left]. }
    apply find_option_found in Ef as [Hr Hp]. apply behind_spec in Eb. apply split_inv in Es as [Hn1 Hn2]. subst w a.
    assert (Hstore : forall v rest' args', (length rest' <= n)%nat -> 
       (forall x l, v = Some x -> sets l rest' -> sets ((r_name r, x) :: l) args') ->
       (match store r v m with Parsed m => parse m rest' | e => e end) = Parsed m' ->
       exists l, sets l args' /\ fresh l m /\ m' = (reverse l ++ m)%list).
    { intros v rest' args' Hl Hc. destruct (store r v m) as [m1| |] eqn:E; [|done|done].
      apply store_spec in E as (x&->&Hx&->). intros E. destruct (IH _ _ _ Hl E) as (l&H1&H2&->).
      exists ((r_name r, x) :: l). split_and!; [by apply Hc|by apply fresh_cons|]. by rewrite reverse_cons, <- app_assoc. }
    destruct text as [text|].
    - destruct text as [|c text].
      + destruct (r_type r); done.
      + destruct (r_type r) eqn:Et; try done; apply Hstore; try lia; intros x l Ex Hs;
          (apply sets_adjacent; [done|done|done| |done]; rewrite Et; by apply cast_spec).
    - rewrite app_nil in *. destruct (r_type r) eqn:Et.
      5: { apply Hstore; [lia|]. intros x l [= <-] Hs. by apply sets_flag. }
      all: (destruct rest as [|s rest]; [done|]); destruct (String.prefix "-" s) eqn:Epre; try done;
        cbn [length] in Hn; apply Hstore; try lia; intros x l Ex Hs; (apply sets_next; [done|done| | |done]);
        [rewrite Et; by apply cast_spec|intros H; apply prefix_spec in H; congruence].
  Qed.
  Lemma accepted_iff args m : parse [] args = Parsed m <-> exists l, sets l args /\ NoDup l.*1 /\ m = reverse l.
  Proof.
    split.
    - intros (l&H1&[H2 _]&->)%(sets_parse (length args)); [|done]. exists l. split_and!; try done. apply app_nil_r.
    - intros (l&H1&H2&->). rewrite (parse_sets _ _ H1); [by rewrite app_nil_r|]. split; [done|]. intros x _ H. by apply elem_of_nil in H.
  Qed.
End Parse.
