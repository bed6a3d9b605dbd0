(** Shortened names of options. *)
From Coq Require Import ZArith NArith Ascii String.
From Flocq Require Import IEEE754.Binary IEEE754.Bits.
From Verif Require Import Base Conc Num MBalance MCmdline SpecCmdline SpecCmdline3 PCmdline.
Local Open Scope string_scope.

Fixpoint prefixes (s : string) : list string :=
  "" :: match s with EmptyString => [] | String c s => String c <$> prefixes s end.
Lemma prefixes_spec p s : begins p s -> p ∈ prefixes s.
Proof.
  revert p. induction s as [|c s IH]; intros p [q E].
  - destruct p; [apply elem_of_list_here|discriminate E].
  - destruct p as [|d p]; [apply elem_of_list_here|]. cbn in E. injection E as -> E. apply elem_of_list_further, elem_of_list_fmap.
    exists p. split; [done|]. apply IH. by exists q.
Qed.
Definition short_ok (x : string * string) : Prop :=
  no_equals x.1 /\ Forall (fun p => if String.prefix x.2 p then find_option p = find_option x.1 /\ p <> "" else find_option p = Ambiguous) (prefixes x.1).
Lemma no_equals_dec s : (fix go s := match s with EmptyString => true | String c s => negb (c =? "=")%char && go s end) s = true -> no_equals s.
Proof.
  induction s as [|c s IH]; intros H; [apply no_equals_nil|]. apply andb_prop in H as [H1 H2]. apply no_equals_cons. split; [|by apply IH].
  intros ->. discriminate H1.
Qed.
Lemma shortest_ok : Forall short_ok shortest.
Proof.
  unfold shortest. repeat (apply Forall_cons; split; [split; [apply no_equals_dec; vm_compute; reflexivity|]|]); [..|by apply Forall_nil].
  all: cbn [fst snd]; match goal with |- Forall _ ?l => let l' := eval vm_compute in l in change l with l' end;
    repeat (apply Forall_cons; split; [vm_compute; first [reflexivity|split; [reflexivity|discriminate]]|]); by apply Forall_nil.
Qed.
Section Short.
  Context (strtod : string -> option binary64) (accepts : string -> bool).
  Lemma parse_word m p rest args : no_equals p -> rest = "" \/ begins "=" rest -> p ++ rest <> "" -> parse strtod accepts m (("--" ++ p ++ rest) :: args) =
    match find_option p with
    | Ambiguous => Rejected
    | NotFound => if accepts ("--" ++ p ++ rest) then parse strtod accepts m args else Rejected
    | Found r =>
        match r_type r, (match rest with EmptyString => None | String _ t => Some t end), args with
        | TFlag, None, _ => match store r (Some (VString "")) m with Parsed m => parse strtod accepts m args | e => e end
        | TFlag, Some _, _ => Rejected
        | _, Some EmptyString, _ => Rejected
        | t, Some s, _ => match store r (cast strtod t s) m with Parsed m => parse strtod accepts m args | e => e end
        | _, None, [] => Rejected
        | t, None, s :: args =>
            if String.prefix "-" s then Unmodelled
            else match store r (cast strtod t s) m with Parsed m => parse strtod accepts m args | e => e end
        end
    end.
  Proof.
    intros Hp Hr Hne.
    assert (E : split_name (p ++ rest) = (p, match rest with EmptyString => None | String _ t => Some t end)).
    { destruct Hr as [->|[q ->]]; [rewrite app_nil; by apply split_none|by apply split_some]. }
    cbn [parse]. replace (("--" ++ p ++ rest) =? "--") with false.
    2:{ symmetry. apply String.eqb_neq. cbn. intros E'. injection E' as E'. done. }
    rewrite (proj2 (behind_spec "--" _ (p ++ rest)) eq_refl), E. reflexivity.
  Qed.
  Lemma shortened name short p rest : (name, short) ∈ shortest -> begins p name -> rest = "" \/ begins "=" rest ->
    (begins short p -> forall m args, parse strtod accepts m (("--" ++ p ++ rest) :: args) = parse strtod accepts m (("--" ++ name ++ rest) :: args)) /\
    (~ begins short p -> p ++ rest <> "" -> forall m args, parse strtod accepts m (("--" ++ p ++ rest) :: args) = Rejected).
  Proof.
    intros Hin Hp Hr. pose proof (proj1 (Forall_forall _ _) shortest_ok _ Hin) as [Hne Hall]. cbn [fst snd] in *.
    pose proof (proj1 (Forall_forall _ _) Hall p (prefixes_spec p name Hp)) as Hf. cbn beta in Hf.
    pose proof (begins_no_equals p name Hp Hne) as Hpe. destruct (String.prefix short p) eqn:Es.
    - apply prefix_spec in Es. destruct Hf as [Hf H0]. split; [|done]. intros _ m args.
      assert (Hn0 : name ++ rest <> "") by (destruct Hp as [q ->]; by destruct p).
      rewrite parse_word, Hf by (done || by destruct p). rewrite (parse_word m name) by done.
      assert (find_option name <> NotFound) as Hnf; [|by destruct (find_option name)].
      intros E. rewrite find_option_not in E. rewrite <- Hf in *. clear -Hin E.
      assert (Hb : Forall (fun x => Exists (fun r => r_name r = x.1) table) shortest).
      { unfold shortest. repeat (apply Forall_cons; split; [|]); [..|by apply Forall_nil].
        all: cbn [fst]; unfold table; repeat (first [apply Exists_cons_hd; reflexivity|apply Exists_cons_tl]). }
      pose proof (proj1 (Forall_forall _ _) Hb _ Hin) as (r&Hr&En)%Exists_exists. apply (E r Hr). cbn [fst] in En. exists "". by rewrite app_nil.
    - assert (Hs : ~ begins short p) by (rewrite <- prefix_spec; by rewrite Es). split; [done|]. intros _ Hx m args. by rewrite parse_word, Hf.
  Qed.
End Short.
