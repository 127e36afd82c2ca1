(** * DeriveCycle: modules of traits that inherit each other. *)

From Verif Require Import Base Derive DeriveSem DeriveSpec DeriveProofs DeriveMap DeriveFacts.
From Coq Require Import Permutation.
Local Open Scope string_scope.
Local Open Scope list_scope.

Lemma oconcat_abort {A B} (f : A -> outcome (list B)) l x :
  (forall y, f y = Abort \/ exists r, f y = Ret r) -> In x l -> f x = Abort -> oconcat f l = Abort.
Proof.
  intros Hf. induction l as [|y l IH]; intros Hx Ha; [destruct Hx|]. cbn [oconcat].
  destruct (Hf y) as [E|[r E]]; rewrite E; [reflexivity|]. cbn [obind].
  destruct Hx as [->|Hx]; [congruence|]. now rewrite IH.
Qed.
Lemma oconcat_ra {A B} (f : A -> outcome (list B)) l :
  (forall y, f y = Abort \/ exists r, f y = Ret r) -> oconcat f l = Abort \/ exists r, oconcat f l = Ret r.
Proof.
  intros Hf. induction l as [|y l IH]; cbn [oconcat]; [eauto|].
  destruct (Hf y) as [E|[r E]]; rewrite E; [auto|]. cbn [obind]. destruct IH as [-> |[r' ->]]; cbn; eauto.
Qed.
Lemma union_ra n : forall k m, union_children n k m = Abort \/ exists r, union_children n k m = Ret r.
Proof.
  induction n as [|n IH]; intros k m; cbn [union_children]; [auto|]. destruct (tm_get k m) as [d|]; [|eauto].
  destruct (oconcat_ra (fun s => union_children n s m) (td_supers d)) as [-> |[r ->]]; cbn; eauto.
Qed.
(** A trait that is its own supertrait in the map is never finished. *)
Lemma union_loop n : forall k m d, tm_get k m = Some d -> In k (td_supers d) -> union_children n k m = Abort.
Proof.
  induction n as [|n IH]; intros k m d Hg Hi; [reflexivity|]. cbn [union_children]. rewrite Hg.
  rewrite (oconcat_abort _ _ k); [reflexivity|intros y; apply union_ra|exact Hi|]. now apply (IH k m d).
Qed.

Lemma tm_get_custom_builtins s : tm_get (TCustom s) builtins = None.
Proof. reflexivity. Qed.
Lemma trait_eqb_custom a b : a <> b -> trait_eqb (TCustom a) (TCustom b) = false.
Proof. intros H. apply trait_eqb_neq. congruence. Qed.
Lemma remove_custom_builtins s : tm_remove (TCustom s) builtins = builtins.
Proof. reflexivity. Qed.

Lemma not_known a : ~ In a reserved -> trait_of_path (plain_path [a]) = TCustom a.
Proof.
  intros H. unfold trait_of_path. unfold reserved in H. cbn in H.
  unfold path_eqb, plain_path. cbn [tp_leading tp_segs map segs_eqb Bool.eqb andb].
  repeat match goal with
  | |- context [String.eqb a ?x] =>
      destruct (String.eqb_spec a x); [subst; first [reflexivity|exfalso; apply H; tauto]|]
  end; cbn. reflexivity.
Qed.

Lemma c78_cycle_refuted_fact :
  forall depth attrs a b, ~ In a reserved -> ~ In b reserved -> a <> b ->
  dync_mod depth attrs [ItemTrait a false false [BTrait false false (plain_path [b])];
                        ItemTrait b false false [BTrait false false (plain_path [a])]] = Abort.
Proof.
  intros depth attrs a b Ha Hb Hab. unfold dync_mod, fill_and_flatten. cbn [fold_left].
  assert (E : fill_trait_map (ItemTrait b false false [BTrait false false (plain_path [a])])
               (fill_trait_map (ItemTrait a false false [BTrait false false (plain_path [b])]) builtins) =
              (TCustom b, TraitData [b] [] [TCustom a]) :: (TCustom a, TraitData [a] [] [TCustom b]) :: builtins).
  { unfold fill_trait_map. cbn [it_name it_bounds]. rewrite (reserved_user a Ha), (reserved_user b Hb).
    rewrite tm_get_custom_builtins. cbn [filter_map bound_trait orb forallb tp_segs plain_path map snd negb andb].
    change (TPath false [(b, false)]) with (plain_path [b]). change (TPath false [(a, false)]) with (plain_path [a]).
    rewrite (not_known a Ha), (not_known b Hb). cbn [tm_get]. rewrite trait_eqb_custom by congruence.
    rewrite tm_get_custom_builtins. reflexivity. }
  rewrite E. clear E. cbn [flatten_all].
  unfold flatten_inheritance at 1. cbn [it_name]. rewrite (reserved_user a Ha).
  cbn [tm_get tm_remove]. rewrite trait_eqb_custom by congruence. rewrite trait_eqb_refl, remove_custom_builtins.
  cbn [td_supers td_path td_methods oconcat].
  destruct (union_ra depth (TCustom b) ((TCustom b, TraitData [b] [] [TCustom a]) :: builtins)) as [-> |[r Er]]; [reflexivity|].
  rewrite Er. cbn [obind]. rewrite app_nil_r.
  cbn [tm_get]. rewrite trait_eqb_custom by congruence. rewrite tm_get_custom_builtins. cbn [assert_ obind].
  assert (Hr : In (TCustom a) r).
  { destruct depth as [|n]; [discriminate Er|]. cbn [union_children tm_get] in Er. rewrite trait_eqb_refl in Er.
    destruct (oconcat _ _); try discriminate Er. cbn [obind] in Er. injection Er as <-.
    apply set_extend_in. left. apply set_collect_in. now left. }
  unfold flatten_inheritance. cbn [it_name]. rewrite (reserved_user b Hb). cbn [tm_get tm_remove].
  repeat first [rewrite trait_eqb_refl|rewrite trait_eqb_custom by congruence].
  cbn [tm_remove]. repeat first [rewrite trait_eqb_refl|rewrite trait_eqb_custom by congruence].
  rewrite remove_custom_builtins. cbn [td_supers oconcat].
  rewrite (union_loop depth (TCustom a) _ (TraitData [a] [] (set_collect (r ++ [TCustom b])))); [reflexivity| |].
  - cbn [tm_get]. now rewrite trait_eqb_refl.
  - cbn [td_supers]. apply set_collect_in, in_or_app. now left.
Qed.

Lemma c78_no_cycle_partial_fact :
  forall attrs its depth, hierarchy its -> (List.length its + 8 < depth)%nat ->
  (forall lib, crate_named attrs lib -> exists out, dync_mod depth attrs its = Ret out) /\
  ((exists out, dync_mod depth attrs its = Ret out) \/ dync_mod depth attrs its = Panic PAssert).
Proof.
  intros attrs its depth Hh Hd. split.
  - intros lib Hs.
    destruct (c48_order_fact attrs lib its its depth depth Hs Hh (Permutation_refl its) Hd Hd) as (out & _ & E & _).
    eauto.
  - destruct (flatten_tables depth its Hh Hd) as (m & E & _). unfold dync_mod. rewrite E. cbn [obind].
    generalize its. induction its0 as [|it l IH]; cbn [oconcat]; [eauto|].
    assert (K : (exists out, construct_items (config_parse attrs) (fill_drop m) it = Ret out) \/
                construct_items (config_parse attrs) (fill_drop m) it = Panic PAssert).
    { unfold construct_items. destruct (tm_get _ _); [|auto]. destruct (ident_ok _); cbn [assert_ obind]; eauto. }
    destruct K as [(out & ->)| ->]; cbn [obind]; [|auto].
    destruct IH as [(out' & ->)| ->]; cbn [obind]; eauto.
Qed.
