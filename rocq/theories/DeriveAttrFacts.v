(** * DeriveAttrFacts: reading the attributes of the macros (C90). *)

From Verif Require Import Base Derive DeriveSpec DeriveFacts DeriveAttr DeriveAttrSpec.
Local Open Scope string_scope.
Local Open Scope list_scope.

(** After an attribute comes the end or a comma. *)
Definition stops (r : list atok) : Prop := match r with [] => True | AComma :: _ => True | _ => False end.

Lemma parse_spelled ts a r : spelled_attr ts a -> stops r -> parse_attrib (ts ++ r) = Some (a, r).
Proof.
  intros H Hr. inversion H as [s eq|s eq v|s eq]; subst; destruct eq; cbn; try reflexivity;
    destruct r as [|[] r]; cbn in *; try contradiction; reflexivity.
Qed.

Lemma parse_spelled_inv ts a r : parse_attrib ts = Some (a, r) ->
  exists h, ts = h ++ r /\ spelled_attr h a.
Proof.
  destruct ts as [|[s| | | | | |] ts]; cbn; try discriminate.
  intros E. destruct (parse_lit (skip_eq ts)) as [v r'] eqn:Ep. inversion E; subst; clear E.
  destruct ts as [|[| | | | | |] ts]; cbn in Ep;
    try (inversion Ep; subst; eexists; split; [|apply (spelled_plain _ false)]; reflexivity).
  - destruct ts as [|[| | | | | |] ts]; cbn in Ep; inversion Ep; subst.
    all: try (eexists; split; [|apply (spelled_plain _ true)]; reflexivity).
    + eexists; split; [|apply (spelled_str _ true)]; reflexivity.
    + eexists; split; [|apply (spelled_lit _ true)]; reflexivity.
  - inversion Ep; subst. eexists; split; [|apply (spelled_str _ false)]; reflexivity.
  - inversion Ep; subst. eexists; split; [|apply (spelled_lit _ false)]; reflexivity.
Qed.

Lemma spelled_attr_length ts a : spelled_attr ts a -> (1 <= List.length ts)%nat.
Proof. intros H; inversion H; cbn; lia. Qed.

Lemma terminated_complete ts l : spelled ts l -> forall fuel, (List.length ts <= fuel)%nat ->
  parse_terminated fuel ts = Some l.
Proof.
  induction 1 as [|ts a Ha|ts a ts' l Ha Hl IH]; intros fuel Hf.
  - destruct fuel; reflexivity.
  - pose proof (spelled_attr_length _ _ Ha). destruct fuel as [|fuel]; [lia|].
    pose proof (parse_spelled ts a [] Ha I) as E. rewrite app_nil_r in E.
    destruct ts as [|t ts]; [cbn in *; lia|]. cbn [parse_terminated]. rewrite E. reflexivity.
  - pose proof (spelled_attr_length _ _ Ha). rewrite app_length in Hf. cbn [List.length] in Hf.
    destruct fuel as [|fuel]; [lia|].
    pose proof (parse_spelled ts a (AComma :: ts') Ha I) as E.
    destruct ts as [|t ts]; [cbn in *; lia|]. cbn [parse_terminated app] in *. rewrite E.
    rewrite IH by lia. reflexivity.
Qed.

Lemma terminated_sound fuel : forall ts l, parse_terminated fuel ts = Some l -> spelled ts l.
Proof.
  induction fuel as [|fuel IH]; intros ts l E.
  - destruct ts; cbn in E; [inversion E; constructor|discriminate].
  - destruct ts as [|t ts]; cbn [parse_terminated] in E; [inversion E; constructor|].
    destruct (parse_attrib (t :: ts)) as [[a r]|] eqn:Ea; [|discriminate].
    destruct (parse_spelled_inv _ _ _ Ea) as (h & Eh & Hs). rewrite Eh.
    destruct r as [|[] r]; try discriminate.
    + inversion E; subst. rewrite app_nil_r. constructor; exact Hs.
    + destruct (parse_terminated fuel r) as [l'|] eqn:El; [|discriminate].
      inversion E; subst. constructor; [exact Hs|]. apply IH, El.
Qed.

Lemma written_spelled a : spelled_attr (written_attr a) a.
Proof.
  destruct a as [s [|v|]]; unfold written_attr; cbn [at_ident at_value].
  - apply (spelled_plain s false).
  - apply (spelled_str s true v).
  - apply (spelled_lit s true).
Qed.
Lemma written_attrs_spelled attrs tr : spelled (written_attrs attrs tr) attrs.
Proof.
  induction attrs as [|a l IH]; [constructor|]. destruct l as [|b l].
  - cbn [written_attrs]. destruct tr; [|rewrite app_nil_r; constructor; apply written_spelled].
    apply spelled_more; [apply written_spelled|constructor].
  - change (written_attrs (a :: b :: l) tr) with (written_attr a ++ AComma :: written_attrs (b :: l) tr).
    apply spelled_more; [apply written_spelled|exact IH].
Qed.

Lemma c90_read_fact :
  forall attrs trailing it depth its,
    parse_attribs (written_attrs attrs trailing) = Some attrs /\
    dync_trait_tokens (written_attrs attrs trailing) it = dync_trait attrs it /\
    dync_mod_tokens depth (written_attrs attrs trailing) its = dync_mod depth attrs its.
Proof.
  intros attrs tr it depth its.
  assert (E : parse_attribs (written_attrs attrs tr) = Some attrs)
    by (apply terminated_complete; [apply written_attrs_spelled|reflexivity]).
  unfold dync_trait_tokens, dync_mod_tokens. rewrite E. auto.
Qed.

Lemma c90_accepted_fact :
  forall ts l, parse_attribs ts = Some l <-> spelled ts l.
Proof.
  intros ts l. split; [apply terminated_sound|]. intros H. apply terminated_complete; [exact H|reflexivity].
Qed.

Lemma c90_refused_fact :
  forall ts it depth its, (forall l, ~ spelled ts l) ->
    dync_trait_tokens ts it = Panic PAssert /\ dync_mod_tokens depth ts its = Panic PAssert.
Proof.
  intros ts it depth its H. unfold dync_trait_tokens, dync_mod_tokens.
  destruct (parse_attribs ts) as [l|] eqn:E; [|auto]. exfalso. exact (H l (proj1 (c90_accepted_fact ts l) E)).
Qed.

(** A mistake in an attribute should be reported. *)
Lemma c90_mistakes_refuted_fact :
  ~ (forall attrs trailing it out,
       dync_trait_tokens (written_attrs attrs trailing) it = Ret out -> Forall documented attrs).
Proof.
  intros H.
  specialize (H [Attrib "dync_crate_nam" (VStr "my")] false (ItemTrait "Tr" false false [])).
  destruct (dync_trait_tokens _ _) as [out| | |] eqn:E in H; [|discriminate E..].
  specialize (H out eq_refl). inversion H as [|a l Hd _]; subst.
  destruct Hd as [Hd|[(s & Hd)|(s & Hd)]]; discriminate.
Qed.

(** Instead it is without effect, whatever it is and wherever it stands. *)
Lemma config_parse_app a b : config_parse (a ++ b) = fold_left config_step b (config_parse a).
Proof. unfold config_parse. apply fold_left_app. Qed.
Lemma step_mistake c a : ~ documented a -> config_step c a = c.
Proof.
  destruct a as [s [|v|]]; unfold config_step; cbn [at_ident at_value]; intros H; [| |reflexivity].
  - destruct (String.eqb_spec s "build_vtable_only"); [|reflexivity]. subst. exfalso. apply H. left. reflexivity.
  - destruct (String.eqb_spec s "dync_crate_name"); [subst; exfalso; apply H; right; left; eauto|].
    destruct (String.eqb_spec s "suffix"); [subst; exfalso; apply H; right; right; eauto|reflexivity].
Qed.
Lemma c90_mistakes_partial_fact :
  forall l1 a l2 trailing it depth its, ~ documented a ->
    dync_trait_tokens (written_attrs (l1 ++ a :: l2) trailing) it = dync_trait (l1 ++ l2) it /\
    dync_mod_tokens depth (written_attrs (l1 ++ a :: l2) trailing) its = dync_mod depth (l1 ++ l2) its.
Proof.
  intros l1 a l2 tr it depth its H.
  destruct (c90_read_fact (l1 ++ a :: l2) tr it depth its) as (_ & -> & ->).
  assert (E : config_parse (l1 ++ a :: l2) = config_parse (l1 ++ l2)).
  { rewrite !config_parse_app. cbn [fold_left]. rewrite (step_mistake _ a H). reflexivity. }
  unfold dync_trait, dync_mod. rewrite E. auto.
Qed.
