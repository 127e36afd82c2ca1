(** * MacroFacts: which calls of the conversion macros expand. *)

From Verif Require Import MacroRules MacroSpec.
From Coq Require Import List String Bool.
Import ListNotations.
Local Open Scope string_scope.

Lemma path_rest_all l : forall acc r, (forall s, In s l -> reserved s = false) ->
  match r with P "::" :: _ => False | _ => True end ->
  path_rest acc (flat_map (fun s => [P "::"; Id s]) l ++ r) = Some ((acc ++ l)%list, r).
Proof.
  induction l as [|s l IH]; intros acc r Hl Hr.
  - cbn [flat_map app]. rewrite app_nil_r. destruct r as [|[] r]; try reflexivity.
    cbn [path_rest]. destruct s as [|[[] [] [] [] [] [] [] []] s]; try reflexivity.
    destruct s as [|[[] [] [] [] [] [] [] []] s]; try reflexivity.
    destruct s; [destruct Hr|reflexivity].
  - cbn [flat_map app path_rest]. rewrite (Hl s) by now left. rewrite IH; [now rewrite <- app_assoc| |exact Hr].
    intros x Hx. apply Hl. now right.
Qed.

Lemma parse_tokens p r : legal p -> match r with P "::" :: _ => False | _ => True end ->
  parse_path (tokens p ++ r) = Some (names p, r).
Proof.
  intros Hp Hr. unfold tokens. cbn [app parse_path]. rewrite (Hp (first p)) by now left.
  apply (path_rest_all (others p) [first p] r); [|exact Hr]. intros s Hs. apply Hp. now right.
Qed.

Lemma not_reserved_underscore s : reserved s = false -> String.eqb s "_" = false.
Proof. intros H. destruct (String.eqb_spec s "_") as [->|]; [discriminate|reflexivity]. Qed.

Lemma match_path x ps p r b : legal p -> match r with P "::" :: _ => False | _ => True end ->
  match_arm (VPath x :: ps) (tokens p ++ r) b = match_arm ps r (b ++ [(x, FPath (names p))])%list.
Proof.
  intros Hp Hr. pose proof (parse_tokens p r Hp Hr) as E. unfold tokens in *. cbn [app] in *.
  cbn [match_arm]. now rewrite E.
Qed.

Lemma from_public c tr vt : legal tr -> legal vt ->
  choose from_dyn_arms (from_call c tr vt) =
  Chose (a_rhs (from_arm (name_of c) (if owned c then "owned" else "slice")))
        [("trait", FPath (names tr)); ("vtable", FPath (names vt))].
Proof.
  intros Ht Hv.
  assert (E : forall n tag, match_arm (a_lhs (from_arm n tag)) (([Id n; P "<"; Id "dyn"] ++ tokens tr ++ [Id "as"] ++ tokens vt ++ [P ">"])%list) [] =
     Matched [("trait", FPath (names tr)); ("vtable", FPath (names vt))]).
  { intros n tag. cbn [from_arm a_lhs app]. cbn [match_arm tok_eqb]. rewrite String.eqb_refl. cbn [String.eqb].
    change (match_arm (VPath "trait" :: [Lit (Id "as"); VPath "vtable"; Lit (P ">")]) (tokens tr ++ Id "as" :: (tokens vt ++ [P ">"]))%list [] =
            Matched [("trait", FPath (names tr)); ("vtable", FPath (names vt))]).
    rewrite match_path by (auto || exact I). cbn [match_arm tok_eqb]. change (String.eqb "as" "as") with true. cbv iota.
    change (match_arm (VPath "vtable" :: [Lit (P ">")]) (tokens vt ++ [P ">"])%list ([("trait", FPath (names tr))]) =
            Matched [("trait", FPath (names tr)); ("vtable", FPath (names vt))]).
    rewrite match_path by (auto || exact I). reflexivity. }
  unfold from_call.
  destruct c; cbn [name_of owned];
   match goal with |- choose _ (([Id ?n; _; _] ++ _)%list) = _ =>
     match goal with |- _ = Chose (a_rhs (from_arm _ ?tag)) _ => specialize (E n tag) end end;
   unfold from_dyn_arms, choose;
   repeat match goal with
   | |- context [match_arm (a_lhs (from_arm ?m ?g)) ?ts []] =>
       first [ rewrite E
             | change (match_arm (a_lhs (from_arm m g)) ts []) with NoMatch ]; cbv iota
   end; reflexivity.
Qed.

(** The containers that own their elements. *)
Lemma c74_from_owned_fact :
  forall c tr vt, owned c = true -> legal tr -> legal vt ->
  exists v, from_dyn_call (from_call c tr vt) = Expands FromOwned v /\
            lookup "vec" v = Some (FIdent (name_of c)) /\
            is_path (lookup "trait" v) tr /\ is_path (lookup "vtable" v) vt.
Proof.
  intros c tr vt Hc Ht Hv. unfold from_dyn_call. change 128 with (2 + 126). cbn [plus expand].
  rewrite (from_public c tr vt Ht Hv). destruct c; try discriminate; eexists;
   (split; [reflexivity|split; [reflexivity|split; left; reflexivity]]).
Qed.

(** No call for a slice expands. *)
Lemma c74_from_slice_refuted_fact :
  forall c tr vt, owned c = false -> legal tr -> legal vt -> from_dyn_call (from_call c tr vt) = NoRules.
Proof.
  intros c tr vt Hc Ht Hv. unfold from_dyn_call. change 128 with (2 + 126). cbn [plus expand].
  rewrite (from_public c tr vt Ht Hv). destruct c; try discriminate; reflexivity.
Qed.


Lemma into_slice_public tr : legal tr ->
  choose into_dyn_arms (into_call CSlice tr) =
  Chose (a_rhs (into_arm "Slice" "slice" VPath)) [("trait", FPath (names tr))].
Proof.
  intros Ht. unfold into_dyn_arms, choose.
  assert (E : match_arm (a_lhs (into_arm "Slice" "slice" VPath)) (into_call CSlice tr) [] =
              Matched [("trait", FPath (names tr))]).
  { change (match_arm (VPath "trait" :: [Lit (P ">")]) (tokens tr ++ [P ">"])%list [] =
            Matched [("trait", FPath (names tr))]).
    rewrite match_path by (auto || exact I). reflexivity. }
  now rewrite E.
Qed.

Lemma into_ident_public c s r : c <> CSlice -> reserved s = false ->
  choose into_dyn_arms (into_call c (UPath s r)) =
  match r with
  | [] => Chose (a_rhs (into_arm (name_of c) (if owned c then "owned" else "slice") VIdent)) [("trait", FIdent s)]
  | _ => CNone
  end.
Proof.
  intros Hc Hs. unfold into_dyn_arms, choose, into_call, tokens. cbn [first others].
  assert (E : forall n tag ts, match_arm (a_lhs (into_arm n tag VIdent)) (([Id n; P "<"; Id "dyn"] ++ (Id s :: ts))%list) [] =
     match_arm [Lit (P ">")] ts [("trait", FIdent s)]).
  { intros n tag ts. cbn [into_arm a_lhs app match_arm tok_eqb]. rewrite String.eqb_refl.
    change (String.eqb "<" "<") with true. change (String.eqb "dyn" "dyn") with true. cbv iota.
    now rewrite (not_reserved_underscore s Hs). }
  destruct c; try congruence; cbn [name_of owned];
   match goal with |- _ = match r with [] => Chose (a_rhs (into_arm ?n ?tag _)) _ | _ => _ end => specialize (E n tag) end;
   destruct r as [|s' r]; cbn [flat_map app];
   match goal with |- context [match_arm _ (Id ?n :: P "<" :: Id "dyn" :: Id s :: ?ts) _] => specialize (E ts); cbn [app] in E end;
   repeat match goal with
   | |- context [match_arm (a_lhs (into_arm ?m ?g VPath)) ?ts []] =>
       change (match_arm (a_lhs (into_arm m g VPath)) ts []) with NoMatch; cbv iota
   | |- context [match_arm (a_lhs (into_arm ?m ?g VIdent)) ?ts []] =>
       first [ rewrite E
             | change (match_arm (a_lhs (into_arm m g VIdent)) ts []) with NoMatch ]; cbv iota
   end; reflexivity.
Qed.

Lemma c74_into_fact :
  forall c tr, legal tr -> c = CSlice \/ others tr = [] ->
  exists v, into_dyn_call (into_call c tr) = Expands (if owned c then IntoOwned else IntoSlice) v /\
            lookup (if owned c then "vec" else "slice") v = Some (FIdent (name_of c)) /\
            is_path (lookup "trait" v) tr.
Proof.
  intros c [s r] Ht Hc. pose proof (Ht s (or_introl eq_refl)) as Hs. unfold into_dyn_call. change 128 with (2 + 126).
  cbn [plus expand].
  assert (Hd : c = CSlice \/ c <> CSlice) by (destruct c; [now left| | | | |]; right; discriminate).
  destruct Hd as [->|Hn].
  { rewrite (into_slice_public _ Ht). eexists. split; [reflexivity|split; [reflexivity|left; reflexivity]]. }
  destruct Hc as [->|Hr]; [congruence|]. cbn in Hr. subst r.
  rewrite (into_ident_public c s [] Hn Hs).
  destruct c; try congruence; cbn [owned name_of a_rhs into_arm].
  all: cbn [transcribe lookup]; change (String.eqb "trait" "trait") with true; cbn [forward].
  all: unfold choose at 1, into_dyn_arms at 1.
  all: repeat match goal with
   | |- context [match_arm (a_lhs (into_arm ?m ?g ?v)) ?ts []] =>
       change (match_arm (a_lhs (into_arm m g v)) ts []) with NoMatch; cbv iota
   end; cbn [a_lhs a_rhs].
  all: cbn [match_arm tok_eqb String.eqb Ascii.eqb Bool.eqb parse_path app].
  all: rewrite ?Hs, ?(not_reserved_underscore s Hs).
  all: eexists; (split; [reflexivity|split; [reflexivity|]]); first [left; reflexivity|right; split; reflexivity].
Qed.

(** With any other container, a path of two or more names is refused. *)
Lemma c74_into_path_refuted_fact :
  forall c tr, legal tr -> c <> CSlice -> others tr <> [] -> into_dyn_call (into_call c tr) = NoRules.
Proof.
  intros c [s r] Ht Hc Hr. unfold into_dyn_call. change 128 with (1 + 127). cbn [plus expand].
  rewrite (into_ident_public c s r Hc (Ht s (or_introl eq_refl))). destruct r; [now elim Hr|reflexivity].
Qed.

(** ** C89 Calls by path *)

Lemma c89_from_dyn_refuted_fact :
  forall c tr vt, legal tr -> legal vt -> from_dyn_by_path (from_call c tr vt) = NotInScope.
Proof.
  intros c tr vt Ht Hv. unfold from_dyn_by_path. change 128 with (1 + 127). cbn [plus expand].
  rewrite (from_public c tr vt Ht Hv). reflexivity.
Qed.

Lemma c89_into_dyn_refuted_fact :
  forall c tr, legal tr -> forall b v, into_dyn_by_path (into_call c tr) <> Expands b v.
Proof.
  intros c [s r] Ht b v. unfold into_dyn_by_path. change 128 with (1 + 127). cbn [plus expand].
  assert (Hd : c = CSlice \/ c <> CSlice) by (destruct c; [now left| | | | |]; right; discriminate).
  destruct Hd as [->|Hn].
  - rewrite (into_slice_public _ Ht). discriminate.
  - rewrite (into_ident_public c s r Hn (Ht s (or_introl eq_refl))). destruct r; discriminate.
Qed.
