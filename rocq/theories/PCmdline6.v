(** Each option by its full name. *)
From Coq Require Import ZArith NArith Ascii String.
From Flocq Require Import IEEE754.Binary IEEE754.Bits.
From Verif Require Import Base Conc Num MBalance MCmdline SpecCmdline SpecCmdline2 PCmdline PCmdline2.
Local Open Scope string_scope.

Lemma row_takes strtod accepts r text : r ∈ table -> r_type r <> TFlag -> text <> "" ->
  parse strtod accepts [] ["--" ++ r_name r ++ "=" ++ text] = match cast strtod (r_type r) text with Some v => Parsed [(r_name r, v)] | None => Rejected end.
Proof.
  intros Hr Hf Ht. cbn [parse].
  replace (("--" ++ r_name r ++ "=" ++ text) =? "--") with false.
  2:{ symmetry. apply String.eqb_neq. cbn. intros E. injection E as E. by destruct (r_name r). }
  rewrite (proj2 (behind_spec "--" _ (r_name r ++ "=" ++ text)) eq_refl).
  rewrite split_some by (by apply table_no_equals).
  rewrite (proj2 (find_option_found (r_name r) r)) by (split; [done|by left]).
  destruct text as [|c text]; [done|].
  destruct (r_type r); try done; destruct (cast strtod _ _) as [v|]; reflexivity.
Qed.
Definition row_is (p : string * vtype) (r : row) : Prop := r_name r = p.1 /\ r_type r = p.2.
Lemma documented_rows : Forall (fun p => p.2 <> TFlag /\ exists r, r ∈ table /\ row_is p r) documented.
Proof.
  apply Forall_forall. intros p Hp.
  assert (Hb : forall l, Forall (fun q => match find (fun r => r_name r =? q.1) table with Some r => r_type r = q.2 /\ q.2 <> TFlag | None => False end) l -> p ∈ l ->
    p.2 <> TFlag /\ exists r, r ∈ table /\ row_is p r).
  { intros l Hl Hpl. rewrite Forall_forall in Hl. specialize (Hl p Hpl). cbn beta in Hl.
    destruct (find _ table) as [r|] eqn:E; [|done]. destruct Hl as [H1 H2]. split; [done|].
    apply find_in in E as [Hr E]. apply String.eqb_eq in E. by exists r. }
  apply (Hb documented); [|done]. unfold documented.
  repeat (apply Forall_cons; split; [split; [reflexivity|discriminate]|]). by apply Forall_nil.
Qed.
Lemma each_cast strtod accepts name type text : (name, type) ∈ documented -> text <> "" ->
  parse strtod accepts [] ["--" ++ name ++ "=" ++ text] = match cast strtod type text with Some v => Parsed [(name, v)] | None => Rejected end.
Proof.
  intros Hin Ht. pose proof (proj1 (Forall_forall _ _) documented_rows _ Hin) as (Hf&r&Hr&E1&E2). cbn [fst snd] in *. subst name type. by apply row_takes.
Qed.
Lemma each_option strtod accepts name type text : (name, type) ∈ documented -> text <> "" ->
  (forall v, means strtod type text v -> parse strtod accepts [] ["--" ++ name ++ "=" ++ text] = Parsed [(name, v)]) /\
  ((forall v, ~ means strtod type text v) -> parse strtod accepts [] ["--" ++ name ++ "=" ++ text] = Rejected).
Proof.
  intros Hin Ht. rewrite each_cast with (type := type) by done. split.
  - intros v Hv%cast_spec. by rewrite Hv.
  - intros Hn. destruct (cast strtod type text) as [v|] eqn:E; [|done]. apply cast_spec in E. by destruct (Hn v).
Qed.
Lemma help_flag strtod accepts text :
  parse strtod accepts [] ["--help"] = Parsed [("help", VString "")] /\ parse strtod accepts [] ["--help=" ++ text] = Rejected.
Proof. split; reflexivity. Qed.
