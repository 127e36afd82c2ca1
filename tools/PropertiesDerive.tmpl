(** * PropertiesDerive: the properties of the macros [dync_mod] and [dync_trait].

    Every theorem is closed by a lemma proved in another file.  Beside each theorem an example
    shows that a concrete case meets its hypotheses.  A theorem whose name ends in [_partial]
    proves part of the property; one ending in [_refuted] shows that the property as stated is
    false of the code.  The words used in the statements are defined in DeriveSpec.v ([hierarchy],
    [inherits], [offered], [names], [functions], [named] ...) and DeriveSem.v (the meaning of the
    generated items: [build], [call_accessor], [convert], [implements], [compiles]). *)

From Verif Require Import Base Value DynMachine DynReach DynCaps DynCapsFacts DynExamples.
From Verif Require Import Derive DeriveSem DeriveSpec DeriveMap DeriveFacts DeriveCycle
  DeriveAttr DeriveAttrSpec DeriveAttrFacts.
From Coq Require Import Sorting.Permutation.
Local Open Scope string_scope.
Local Open Scope list_scope.

(** The module of the examples:
    [trait Full: Named + Eq {}], [trait Named: Shown + Clone + Send {}],
    [trait Shown: 'static + std::fmt::Debug + std::hash::Hash {}], in this order. *)
Definition plain (l : list string) : bound := BTrait false false (plain_path l).
Definition full_it : item_trait := ItemTrait "Full" false false [plain ["Named"]; plain ["Eq"]].
Definition named_it : item_trait :=
  ItemTrait "Named" false false [plain ["Shown"]; plain ["Clone"]; plain ["Send"]].
Definition shown_it : item_trait :=
  ItemTrait "Shown" false false [BLifetime; plain ["std"; "fmt"; "Debug"]; plain ["std"; "hash"; "Hash"]].
Definition mod_ex : list item_trait := [full_it; named_it; shown_it].
Definition attrs_ex : list attrib := [Attrib "dync_crate_name" (VStr "crate")].

Lemma mod_ex_hierarchy : hierarchy mod_ex.
Proof.
  split.
  - repeat constructor; cbn; intuition discriminate.
  - intros it [<-|[<-|[<-|[]]]]; vm_compute; intuition discriminate.
  - apply (ranked_acyclic _ (fun t => match t with
        | TCustom s => if String.eqb s "Full" then 4 else if String.eqb s "Named" then 3 else 2
        | TEq => 1 | _ => 0 end)%nat); [|cbn; lia].
    intros it b t Hit Hb Hn. apply bound_trait_names in Hn.
    destruct Hit as [<-|[<-|[<-|[]]]]; cbn in Hb;
      repeat match goal with H : _ \/ _ |- _ => destruct H as [H|H] end; try contradiction;
      subst b; vm_compute in Hn; inversion Hn; subst t; cbn; lia.
Qed.

Lemma attrs_ex_crate : crate_named attrs_ex "crate".
Proof.
  split; [left; exists [], []; split; [reflexivity|intros s []]|apply ident_ok_iff; reflexivity].
Qed.

Lemma full_named : inherits mod_ex (TCustom "Full") (TCustom "Named").
Proof.
  eapply (inherits_bound _ full_it (plain ["Named"])); [left; reflexivity|left; reflexivity|].
  apply bound_trait_names. reflexivity.
Qed.

Lemma named_shown : inherits mod_ex (TCustom "Named") (TCustom "Shown").
Proof.
  eapply (inherits_bound _ named_it (plain ["Shown"])); [cbn; tauto|cbn; tauto|].
  apply bound_trait_names. reflexivity.
Qed.

Lemma shown_hash : inherits mod_ex (TCustom "Shown") THash.
Proof.
  eapply (inherits_bound _ shown_it (plain ["std"; "hash"; "Hash"])); [cbn; tauto|cbn; tauto|].
  apply bound_trait_names. reflexivity.
Qed.

(** ** C46 Derived tables dispatch to the right functions *)

@@ c46_dispatch
Example c46_dispatch_ex :
  hierarchy mod_ex /\ (List.length mod_ex + 8 < 12)%nat /\
  crate_named attrs_ex "crate" /\ In full_it mod_ex /\
  In ("hash_fn", THash, fun t => FHash (HashOf t)) functions /\
  offered mod_ex (TCustom (it_name full_it)) THash.
Proof.
  split; [apply mod_ex_hierarchy|]. split; [cbn; lia|]. split; [apply attrs_ex_crate|].
  split; [cbn; tauto|]. split; [cbn; tauto|]. right.
  exact (inherits_trans _ _ _ _ full_named (inherits_trans _ _ _ _ named_shown shown_hash)).
Qed.

@@ c46_dispatch_trait
Example c46_dispatch_trait_ex :
  ~ In (it_name shown_it) reserved /\ it_generics shown_it = false /\ it_where shown_it = false /\
  crate_named attrs_ex "crate" /\
  (exists b, In b (it_bounds shown_it) /\ names b TDebug).
Proof.
  split; [vm_compute; intuition discriminate|]. do 2 (split; [reflexivity|]).
  split; [apply attrs_ex_crate|]. exists (plain ["std"; "fmt"; "Debug"]). split; [cbn; tauto|]. apply bound_trait_names. reflexivity.
Qed.

@@ c46_library_tables
Example c46_library_tables_ex : In (TEq, "Eq") std_traits /\ inherits [] TEq TPartialEq.
Proof. split; [cbn; tauto|apply inherits_eq]. Qed.

@@ c46_generated_table
Example c46_generated_table_ex :
  forall tr, In tr [TClone; TPartialEq; THash; TDebug] ->
    inherits mod_ex (TCustom (it_name full_it)) tr.
Proof.
  assert (Hc : inherits mod_ex (TCustom "Named") TClone).
  { eapply (inherits_bound _ named_it (plain ["Clone"])); [cbn; tauto|cbn; tauto|].
    apply bound_trait_names. reflexivity. }
  assert (He : inherits mod_ex (TCustom "Full") TEq).
  { eapply (inherits_bound _ full_it (plain ["Eq"])); [cbn; tauto|cbn; tauto|].
    apply bound_trait_names. reflexivity. }
  assert (Hd : inherits mod_ex (TCustom "Shown") TDebug).
  { eapply (inherits_bound _ shown_it (plain ["std"; "fmt"; "Debug"])); [cbn; tauto|cbn; tauto|].
    apply bound_trait_names. reflexivity. }
  intros tr [<-|[<-|[<-|[<-|[]]]]].
  - exact (inherits_trans _ _ _ _ full_named Hc).
  - exact (inherits_trans _ _ _ _ He (inherits_eq _)).
  - exact (inherits_trans _ _ _ _ full_named (inherits_trans _ _ _ _ named_shown shown_hash)).
  - exact (inherits_trans _ _ _ _ full_named (inherits_trans _ _ _ _ named_shown Hd)).
Qed.

(** ** C47 Derived base conversions *)

@@ c47_base_tables
Example c47_base_tables_ex :
  offered mod_ex (TCustom (it_name full_it)) THash /\ named "crate" mod_ex THash "crate::traits::" "Hash" /\
  offered mod_ex (TCustom (it_name full_it)) (TCustom "Shown") /\
  named "crate" mod_ex (TCustom "Shown") "" "Shown".
Proof.
  repeat split.
  - right. exact (inherits_trans _ _ _ _ full_named (inherits_trans _ _ _ _ named_shown shown_hash)).
  - apply (named_std "crate" mod_ex). cbn; tauto.
  - right. exact (inherits_trans _ _ _ _ full_named named_shown).
  - apply (named_user "crate" mod_ex shown_it). cbn; tauto.
Qed.

@@ c47_conversions_agree
Example c47_conversions_agree_ex :
  inherits mod_ex (TCustom (it_name full_it)) (TCustom (it_name named_it)) /\
  offered mod_ex (TCustom (it_name named_it)) (TCustom (it_name shown_it)).
Proof. split; [exact full_named|right; exact named_shown]. Qed.

(** ** C48 Inheritance flattening is the transitive closure *)

@@ c48_closure
@@ c48_has_trait
Example c48_closure_ex :
  hierarchy mod_ex /\ (List.length mod_ex + 8 < 12)%nat /\
  named "crate" mod_ex TPartialEq "crate::traits::" "PartialEq" /\
  named "crate" mod_ex (TCustom "Named") "" "Named".
Proof.
  split; [apply mod_ex_hierarchy|]. split; [cbn; lia|]. split.
  - apply (named_std "crate" mod_ex). cbn; tauto.
  - apply (named_user "crate" mod_ex named_it). cbn; tauto.
Qed.

@@ c48_order
Example c48_order_ex :
  crate_named attrs_ex "crate" /\ hierarchy mod_ex /\ Permutation mod_ex [shown_it; named_it; full_it] /\
  mod_ex <> [shown_it; named_it; full_it].
Proof.
  split; [apply attrs_ex_crate|]. split; [apply mod_ex_hierarchy|]. split; [|discriminate].
  apply (Permutation_rev mod_ex).
Qed.

(** ** C49 Drop comes first exactly once *)

@@ c49_drop_first
@@ c49_drop_first_trait
Example c49_drop_first_ex :
  hierarchy mod_ex /\ In named_it mod_ex /\ ~ In (it_name named_it) reserved /\
  it_generics named_it = false /\ it_where named_it = false.
Proof.
  split; [apply mod_ex_hierarchy|]. split; [cbn; tauto|].
  split; [vm_compute; intuition discriminate|]. split; reflexivity.
Qed.

(** ** C50 Macro configuration is honoured *)

@@ c50_suffix_refuted
@@ c50_default_suffix_partial
Example c50_default_suffix_ex :
  ~ In (it_name shown_it) reserved /\ setting attrs_ex "suffix" "VTable" "VTable" /\
  exists lib, crate_named attrs_ex lib.
Proof.
  split; [vm_compute; intuition discriminate|]. split; [|exists "crate"; apply attrs_ex_crate].
  right. split; [reflexivity|]. intros s [E|[]]. discriminate.
Qed.

@@ c50_ignored
(** A library that is reached by a path, as when another crate exports it again, cannot be named. *)
@@ c50_crate_path_refuted
Example c50_crate_path_ex :
  ~ path_start "crate::dync" /\ ~ path_start "my-dync" /\ ~ path_start "" /\
  path_start "crate" /\ path_start "dync_2" /\
  setting [Attrib "dync_crate_name" (VStr "crate::dync")] "dync_crate_name" "dync" "crate::dync".
Proof.
  repeat split; try (intros H; apply ident_ok_iff in H; discriminate); try (apply ident_ok_iff; reflexivity).
  left. exists [], []. split; [reflexivity|intros s []].
Qed.

(** ** C64 Standard supertraits are recognised however they are written *)

@@ c64_paths_refuted
@@ c64_paths_partial
Example c64_paths_ex :
  hierarchy mod_ex /\ In shown_it mod_ex /\
  In (BTrait false false (plain_path ["std"; "hash"; "Hash"])) (it_bounds shown_it) /\
  In (plain_path ["std"; "hash"; "Hash"], THash) known_paths /\ In (THash, "Hash") std_traits.
Proof. split; [apply mod_ex_hierarchy|]. cbn; tauto. Qed.

(** ** C65 The generated code type-checks *)

@@ c65_mod_compiles
Example c65_mod_compiles_ex :
  hierarchy mod_ex /\ (List.length mod_ex + 8 < 12)%nat /\
  crate_named attrs_ex "crate".
Proof. split; [apply mod_ex_hierarchy|]. split; [cbn; lia|apply attrs_ex_crate]. Qed.

(** The check decides the typing rules of DeriveSpec.v. *)
@@ c65_check
@@ c65_library
(** The check refuses an accessor whose field has another type or does not exist, ... *)
Example c65_check_ex :
  let has i := GHasImpl (lib_q "dync" "HasHash") (lib_q "dync" "HashVTable") false
                 [HasMethod "hash_fn" (lib_q "dync" "HashFn") i] in
  item_ok "dync" (lib_items "dync") (has 1) = true /\
  item_ok "dync" (lib_items "dync") (has 0) = false /\ item_ok "dync" (lib_items "dync") (has 2) = false.
Proof. vm_compute. auto. Qed.

@@ c65_trait_refuted
@@ c65_trait_partial
Example c65_trait_ex :
  ~ In (it_name shown_it) reserved /\
  (forall b, In b (it_bounds shown_it) -> ~ names b (TCustom (it_name shown_it))) /\
  ((exists b, In b (it_bounds shown_it) /\ names b TEq) ->
   exists b, In b (it_bounds shown_it) /\ names b TPartialEq).
Proof.
  split; [vm_compute; intuition discriminate|]. split.
  - intros b Hb Hn. apply bound_trait_names in Hn. cbn in Hb.
    destruct Hb as [<-|[<-|[<-|[]]]]; vm_compute in Hn; discriminate.
  - intros (b & Hb & Hn). apply bound_trait_names in Hn. cbn in Hb.
    destruct Hb as [<-|[<-|[<-|[]]]]; vm_compute in Hn; discriminate.
Qed.

(** ** C66 User traits are never mistaken for standard ones *)

@@ c66_std_names_refuted
(** The mistake is made for each of the eight names: the bounds of a trait so named are ignored,
    wherever it stands in whatever module. *)
@@ c66_bounds_ignored_refuted
(** [trait Debug: Clone] should offer cloning, and any other name does. *)
Example c66_bounds_ignored_ex :
  let offers n :=
    match dync_trait [] (ItemTrait n false false [plain ["Clone"]]) with
    | Ret out => implements (lib_items "dync" ++ out) (has_of (lib_mod "dync") "Clone") (vtable_of "" n)
    | _ => true
    end in
  In (TDebug, "Debug") std_traits /\ offers "Debug" = false /\ offers "Tr" = true.
Proof. vm_compute. tauto. Qed.
(** For the name [Drop] what is generated does not even compile. *)
@@ c66_own_drop_refuted
(** A trait under another name passes the check. *)
Example c66_own_drop_ex :
  crate_named attrs_ex "crate" /\
  match dync_trait attrs_ex (ItemTrait "Tr" false false [plain ["Clone"]]) with
  | Ret out => forallb (item_ok "crate" (lib_items "crate" ++ out)) out = true
  | _ => False
  end.
Proof. split; [exact attrs_ex_crate|]. vm_compute. reflexivity. Qed.
@@ c66_module_traits_partial
(** [trait Named: Shown], with [Shown] declared without supertraits. *)
Definition small_ex : list item_trait :=
  [ItemTrait "Named" false false [plain ["Shown"]]; ItemTrait "Shown" false false []].
Example c66_module_traits_ex :
  hierarchy small_ex /\
  forall b, In b [plain ["Shown"]] ->
    exists n, b = BTrait false false (plain_path [n]) /\ In (ItemTrait n false false []) small_ex.
Proof.
  split.
  - split.
    + repeat constructor; cbn; intuition discriminate.
    + intros it [<-|[<-|[]]]; vm_compute; intuition discriminate.
    + apply (ranked_acyclic _ (fun t => match t with
        | TCustom s => if String.eqb s "Named" then 3 else 2 | TEq => 1 | _ => 0 end)%nat); [|cbn; lia].
      intros it b t Hit Hb Hn. apply bound_trait_names in Hn.
      destruct Hit as [<-|[<-|[]]]; cbn in Hb; [|contradiction]. destruct Hb as [<-|[]].
      vm_compute in Hn. inversion Hn; subst t. cbn. lia.
  - intros b [<-|[]]. exists "Shown". cbn; tauto.
Qed.

@@ c66_library_untouched_partial

(** ** C78 The macro always finishes *)

(** Traits that inherit each other are an error to the compiler, but the macro runs first: its
    recursion never ends, whatever the stack. *)
@@ c78_cycle_refuted
Example c78_cycle_ex : ~ In "A" reserved /\ ~ In "B" reserved /\ "A" <> "B".
Proof. repeat split; vm_compute; intuition discriminate. Qed.
@@ c78_no_cycle_partial
Example c78_no_cycle_ex :
  hierarchy mod_ex /\ (List.length mod_ex + 8 < 20)%nat /\ crate_named attrs_ex "crate".
Proof. split; [apply mod_ex_hierarchy|]. split; [cbn; lia|apply attrs_ex_crate]. Qed.

(** ** C87 A table need only offer what the program uses *)

@@ c87_smaller_tables
(** A program that makes, fills, reads, hashes, prints and drops vectors, but clones and compares nothing. *)
Definition p_shown : list dstep :=
  [DFromVec ty_string 4 [1; 5; 2]%Z; DCall 0 (VPushAs ty_string 9%Z); DCall 0 VHash; DCall 0 VFmt;
   OBox ty_string 8%Z; OHashVal 1; OFmtVal 1; DCall 0 (VReadAs ty_string); DDrop 0].
Lemma p_shown_needs : forall s c, In s p_shown -> In c (needs s) -> c = CapHash \/ c = CapFmt.
Proof.
  intros s c Hs Hc. cbn [p_shown In] in Hs.
  repeat (destruct Hs as [<-|Hs]; [cbn in Hc; intuition congruence|]). contradiction.
Qed.
Example c87_smaller_tables_ex :
  exists s c, In s p_shown /\ In c (needs s).
Proof. exists (DCall 0 VHash), CapHash. split; [cbn; tauto|left; reflexivity]. Qed.
@@ c87_library
Example c87_library_ex :
  forall s c, In s [DFromVec ty_string 4 [1; 5; 2]%Z; DClone 0; DDrop 0; OCloneBox (FromVec 1 2)] ->
    In c (needs s) -> c = CapClone.
Proof. intros s c Hs Hc. cbn [In] in Hs. repeat (destruct Hs as [<-|Hs]; [cbn in Hc; intuition congruence|]). contradiction. Qed.
@@ c87_paired
Example c87_paired_ex :
  offers (V := CloneVTable) (H0 := made_eq) (H1 := made_hash) (H2 := made_fmt) CapClone.
Proof. intros t. cbn. auto. Qed.
@@ c87_derived
@@ c87_derived_accounting
Example c87_derived_ex :
  hierarchy mod_ex /\ (List.length mod_ex + 8 < 20)%nat /\
  crate_named attrs_ex "crate" /\ In shown_it mod_ex /\
  ~ In CapClone (flat_map needs p_shown) /\
  (forall s c, In s p_shown -> In c (needs s) -> inherits mod_ex (TCustom (it_name shown_it)) (cap_trait c)) /\
  wf_tenv edgy_env /\ clones_ok edgy_env /\ Forall (dstep_typed edgy_env) p_shown.
Proof.
  split; [apply mod_ex_hierarchy|]. split; [cbn; lia|]. split; [apply attrs_ex_crate|].
  split; [cbn; tauto|]. split; [vm_compute; intuition discriminate|]. split.
  - intros s c Hs Hc. destruct (p_shown_needs s c Hs Hc) as [-> | ->]; cbn [cap_trait].
    + exact shown_hash.
    + eapply (inherits_bound _ shown_it (plain ["std"; "fmt"; "Debug"])); [cbn; tauto|cbn; tauto|].
      apply bound_trait_names. reflexivity.
  - split; [apply edgy_env_ok|]. split; [apply edgy_env_ok|typed_dprog].
Qed.
(** The run itself, with the table derived for [Shown]. *)
Example c87_derived_run_ex :
  exists out, dync_mod 20 attrs_ex mod_ex = Ret out /\
    let V := gtable "crate" (lib_items "crate" ++ out) (vtable_of "" "Shown") in
    dyn_in_range release edgy_env p_shown (d_init (V := V)) /\
    nth_error (fst (drun release edgy_env p_shown (d_init (V := V)))) 7 =
      Some (Ret (DObs (AVals (Some [1; 5; 2; 9]%Z)))).
Proof.
  eexists. split; [vm_compute; reflexivity|]. split; [vm_compute; intuition (try discriminate; auto)|vm_compute; reflexivity].
Qed.

(** ** C90 Attributes are read as written, and mistakes are reported *)

(** Every list of attributes, written with commas between them and perhaps one at the end. *)
@@ c90_read
Example c90_read_ex :
  written_attrs [Attrib "build_vtable_only" VNone; Attrib "dync_crate_name" (VStr "crate")] true =
    [AIdent "build_vtable_only"; AComma; AIdent "dync_crate_name"; AEq; AStr "crate"; AComma].
Proof. reflexivity. Qed.

(** What is accepted in all, and that the rest is refused by both macros. *)
@@ c90_accepted
@@ c90_refused
(** [dync_crate_name = crate], without quotes; a comma too many. *)
Example c90_refused_ex :
  (forall l, ~ spelled [AIdent "dync_crate_name"; AEq; AKeyword "crate"] l) /\
  (forall l, ~ spelled [AIdent "a"; AComma; AComma] l) /\
  spelled [AIdent "suffix"; AStr "Table"; AComma; AIdent "x"; AEq] [Attrib "suffix" (VStr "Table"); Attrib "x" VNone].
Proof.
  split; [|split]; try (intros l H; apply c90_accepted_fact in H; vm_compute in H; discriminate).
  apply c90_accepted_fact. reflexivity.
Qed.

(** A misspelt name or a value of the wrong kind should be reported. *)
@@ c90_mistakes_refuted
(** Every such attribute is dropped without a word. *)
@@ c90_mistakes_partial
Example c90_mistakes_ex :
  ~ documented (Attrib "dync_crate_nam" (VStr "my")) /\ ~ documented (Attrib "build_vtable_only" VOther).
Proof. split; intros [H|[(s & H)|(s & H)]]; discriminate. Qed.
