(** * PropertiesDerive: the properties of the macros [dync_mod] and [dync_trait].

    Every theorem is closed by a lemma proved in another file.  Beside each theorem an example
    shows that a concrete case meets its hypotheses.  A theorem whose name ends in [_partial]
    proves part of the property; one ending in [_refuted] shows that the property as stated is
    false of the code.  The words used in the statements are defined in DeriveSpec.v ([hierarchy],
    [inherits], [offered], [names], [functions], [named] ...) and DeriveSem.v (the meaning of the
    generated items: [build], [call_accessor], [convert], [implements], [compiles]). *)

From Verif Require Import Base Value DynMachine DynReach DynCaps DynCapsFacts DynExamples.
From Verif Require Import Derive DeriveSem DeriveSpec DeriveMap DeriveFacts DeriveCycle
  DeriveAttr DeriveAttrSpec DeriveAttrFacts.
From Coq Require Import Sorting.Permutation.
Local Open Scope string_scope.
Local Open Scope list_scope.

(** The module of the examples:
    [trait Full: Named + Eq {}], [trait Named: Shown + Clone + Send {}],
    [trait Shown: 'static + std::fmt::Debug + std::hash::Hash {}], in this order. *)
Definition plain (l : list string) : bound := BTrait false false (plain_path l).
Definition full_it : item_trait := ItemTrait "Full" false false [plain ["Named"]; plain ["Eq"]].
Definition named_it : item_trait :=
  ItemTrait "Named" false false [plain ["Shown"]; plain ["Clone"]; plain ["Send"]].
Definition shown_it : item_trait :=
  ItemTrait "Shown" false false [BLifetime; plain ["std"; "fmt"; "Debug"]; plain ["std"; "hash"; "Hash"]].
Definition mod_ex : list item_trait := [full_it; named_it; shown_it].
Definition attrs_ex : list attrib := [Attrib "dync_crate_name" (VStr "crate")].

Lemma mod_ex_hierarchy : hierarchy mod_ex.
Proof.
  split.
  - repeat constructor; cbn; intuition discriminate.
  - intros it [<-|[<-|[<-|[]]]]; vm_compute; intuition discriminate.
  - apply (ranked_acyclic _ (fun t => match t with
        | TCustom s => if String.eqb s "Full" then 4 else if String.eqb s "Named" then 3 else 2
        | TEq => 1 | _ => 0 end)%nat); [|cbn; lia].
    intros it b t Hit Hb Hn. apply bound_trait_names in Hn.
    destruct Hit as [<-|[<-|[<-|[]]]]; cbn in Hb;
      repeat match goal with H : _ \/ _ |- _ => destruct H as [H|H] end; try contradiction;
      subst b; vm_compute in Hn; inversion Hn; subst t; cbn; lia.
Qed.

Lemma attrs_ex_crate : crate_named attrs_ex "crate".
Proof.
  split; [left; exists [], []; split; [reflexivity|intros s []]|apply ident_ok_iff; reflexivity].
Qed.

Lemma full_named : inherits mod_ex (TCustom "Full") (TCustom "Named").
Proof.
  eapply (inherits_bound _ full_it (plain ["Named"])); [left; reflexivity|left; reflexivity|].
  apply bound_trait_names. reflexivity.
Qed.

Lemma named_shown : inherits mod_ex (TCustom "Named") (TCustom "Shown").
Proof.
  eapply (inherits_bound _ named_it (plain ["Shown"])); [cbn; tauto|cbn; tauto|].
  apply bound_trait_names. reflexivity.
Qed.

Lemma shown_hash : inherits mod_ex (TCustom "Shown") THash.
Proof.
  eapply (inherits_bound _ shown_it (plain ["std"; "hash"; "Hash"])); [cbn; tauto|cbn; tauto|].
  apply bound_trait_names. reflexivity.
Qed.

(** ** C46 Derived tables dispatch to the right functions *)

Theorem c46_dispatch :
  forall attrs lib its depth it t,
    hierarchy its -> (List.length its + 8 < depth)%nat ->
    crate_named attrs lib -> In it its ->
    exists out tbl,
      dync_mod depth attrs its = Ret out /\
      let P := lib_items lib ++ out in
      let q := vtable_of "" (it_name it) in
      build lib P q t = Some tbl /\
      (forall n tr f, In (n, tr, f) functions -> offered its (TCustom (it_name it)) tr ->
         call_accessor P q tbl n = Some (f t)) /\
      (forall n tr f, In (n, tr, f) functions -> ~ offered its (TCustom (it_name it)) tr ->
         accessor P q n = None) /\
      (forall n, (forall tr f, ~ In (n, tr, f) functions) -> accessor P q n = None).
Proof. exact c46_dispatch_fact. Qed.
Print Assumptions c46_dispatch.
Example c46_dispatch_ex :
  hierarchy mod_ex /\ (List.length mod_ex + 8 < 12)%nat /\
  crate_named attrs_ex "crate" /\ In full_it mod_ex /\
  In ("hash_fn", THash, fun t => FHash (HashOf t)) functions /\
  offered mod_ex (TCustom (it_name full_it)) THash.
Proof.
  split; [apply mod_ex_hierarchy|]. split; [cbn; lia|]. split; [apply attrs_ex_crate|].
  split; [cbn; tauto|]. split; [cbn; tauto|]. right.
  exact (inherits_trans _ _ _ _ full_named (inherits_trans _ _ _ _ named_shown shown_hash)).
Qed.

Theorem c46_dispatch_trait :
  forall attrs lib it t,
    ~ In (it_name it) reserved -> it_generics it = false -> it_where it = false ->
    crate_named attrs lib ->
    exists out tbl,
      dync_trait attrs it = Ret out /\
      let P := lib_items lib ++ out in
      let q := vtable_of "" (it_name it) in
      let direct tr := tr = TDrop \/ exists b, In b (it_bounds it) /\ names b tr in
      build lib P q t = Some tbl /\
      (forall n tr f, In (n, tr, f) functions -> direct tr ->
         call_accessor P q tbl n = Some (f t)) /\
      (forall n tr f, In (n, tr, f) functions -> ~ direct tr -> accessor P q n = None) /\
      (forall n, (forall tr f, ~ In (n, tr, f) functions) -> accessor P q n = None).
Proof. exact c46_dispatch_trait_fact. Qed.
Print Assumptions c46_dispatch_trait.
Example c46_dispatch_trait_ex :
  ~ In (it_name shown_it) reserved /\ it_generics shown_it = false /\ it_where shown_it = false /\
  crate_named attrs_ex "crate" /\
  (exists b, In b (it_bounds shown_it) /\ names b TDebug).
Proof.
  split; [vm_compute; intuition discriminate|]. do 2 (split; [reflexivity|]).
  split; [apply attrs_ex_crate|]. exists (plain ["std"; "fmt"; "Debug"]). split; [cbn; tauto|]. apply bound_trait_names. reflexivity.
Qed.

Theorem c46_library_tables :
  forall lib b s t, In (b, s) std_traits ->
    let P := lib_items lib in
    let q := vtable_of (lib_mod lib) s in
    let has tr := tr = TDrop \/ tr = b \/ inherits [] b tr in
    exists tbl,
      build lib P q t = Some tbl /\
      (forall n tr f, In (n, tr, f) functions -> has tr -> call_accessor P q tbl n = Some (f t)) /\
      (forall n tr f, In (n, tr, f) functions -> ~ has tr -> accessor P q n = None).
Proof. exact c46_library_tables_fact. Qed.
Print Assumptions c46_library_tables.
Example c46_library_tables_ex : In (TEq, "Eq") std_traits /\ inherits [] TEq TPartialEq.
Proof. split; [cbn; tauto|apply inherits_eq]. Qed.

Theorem c46_generated_table :
  forall attrs lib its depth it,
    hierarchy its -> (List.length its + 8 < depth)%nat ->
    crate_named attrs lib -> In it its ->
    (forall tr, In tr [TClone; TPartialEq; THash; TDebug] -> inherits its (TCustom (it_name it)) tr) ->
    exists out,
      dync_mod depth attrs its = Ret out /\
      Lawful (gtable lib (lib_items lib ++ out) (vtable_of "" (it_name it))).
Proof. exact c46_generated_table_fact. Qed.
Print Assumptions c46_generated_table.
Example c46_generated_table_ex :
  forall tr, In tr [TClone; TPartialEq; THash; TDebug] ->
    inherits mod_ex (TCustom (it_name full_it)) tr.
Proof.
  assert (Hc : inherits mod_ex (TCustom "Named") TClone).
  { eapply (inherits_bound _ named_it (plain ["Clone"])); [cbn; tauto|cbn; tauto|].
    apply bound_trait_names. reflexivity. }
  assert (He : inherits mod_ex (TCustom "Full") TEq).
  { eapply (inherits_bound _ full_it (plain ["Eq"])); [cbn; tauto|cbn; tauto|].
    apply bound_trait_names. reflexivity. }
  assert (Hd : inherits mod_ex (TCustom "Shown") TDebug).
  { eapply (inherits_bound _ shown_it (plain ["std"; "fmt"; "Debug"])); [cbn; tauto|cbn; tauto|].
    apply bound_trait_names. reflexivity. }
  intros tr [<-|[<-|[<-|[<-|[]]]]].
  - exact (inherits_trans _ _ _ _ full_named Hc).
  - exact (inherits_trans _ _ _ _ He (inherits_eq _)).
  - exact (inherits_trans _ _ _ _ full_named (inherits_trans _ _ _ _ named_shown shown_hash)).
  - exact (inherits_trans _ _ _ _ full_named (inherits_trans _ _ _ _ named_shown Hd)).
Qed.

(** ** C47 Derived base conversions *)

Theorem c47_base_tables :
  forall attrs lib its depth it b p s t,
    hierarchy its -> (List.length its + 8 < depth)%nat ->
    crate_named attrs lib -> In it its ->
    offered its (TCustom (it_name it)) b -> named lib its b p s ->
    exists out ta tb,
      dync_mod depth attrs its = Ret out /\
      let P := lib_items lib ++ out in
      build lib P (vtable_of "" (it_name it)) t = Some ta /\
      build lib P (vtable_of p s) t = Some tb /\
      convert P (vtable_of "" (it_name it)) (vtable_of p s) ta = Some tb.
Proof. exact c47_base_tables_fact. Qed.
Print Assumptions c47_base_tables.
Example c47_base_tables_ex :
  offered mod_ex (TCustom (it_name full_it)) THash /\ named "crate" mod_ex THash "crate::traits::" "Hash" /\
  offered mod_ex (TCustom (it_name full_it)) (TCustom "Shown") /\
  named "crate" mod_ex (TCustom "Shown") "" "Shown".
Proof.
  repeat split.
  - right. exact (inherits_trans _ _ _ _ full_named (inherits_trans _ _ _ _ named_shown shown_hash)).
  - apply (named_std "crate" mod_ex). cbn; tauto.
  - right. exact (inherits_trans _ _ _ _ full_named named_shown).
  - apply (named_user "crate" mod_ex shown_it). cbn; tauto.
Qed.

Theorem c47_conversions_agree :
  forall attrs lib its depth a b c p s t,
    hierarchy its -> (List.length its + 8 < depth)%nat ->
    crate_named attrs lib -> In a its -> In b its ->
    inherits its (TCustom (it_name a)) (TCustom (it_name b)) ->
    offered its (TCustom (it_name b)) c -> named lib its c p s ->
    exists out ta tb tc,
      dync_mod depth attrs its = Ret out /\
      let P := lib_items lib ++ out in
      build lib P (vtable_of "" (it_name a)) t = Some ta /\
      convert P (vtable_of "" (it_name a)) (vtable_of "" (it_name b)) ta = Some tb /\
      convert P (vtable_of "" (it_name b)) (vtable_of p s) tb = Some tc /\
      convert P (vtable_of "" (it_name a)) (vtable_of p s) ta = Some tc.
Proof. exact c47_conversions_agree_fact. Qed.
Print Assumptions c47_conversions_agree.
Example c47_conversions_agree_ex :
  inherits mod_ex (TCustom (it_name full_it)) (TCustom (it_name named_it)) /\
  offered mod_ex (TCustom (it_name named_it)) (TCustom (it_name shown_it)).
Proof. split; [exact full_named|right; exact named_shown]. Qed.

(** ** C48 Inheritance flattening is the transitive closure *)

Theorem c48_closure :
  forall attrs lib its depth it b p s,
    hierarchy its -> (List.length its + 8 < depth)%nat ->
    crate_named attrs lib -> In it its -> named lib its b p s ->
    exists out,
      dync_mod depth attrs its = Ret out /\
      (implements (lib_items lib ++ out) (has_of p s) (vtable_of "" (it_name it)) = true
       <-> b = TCustom (it_name it) \/ b = TDrop \/ inherits its (TCustom (it_name it)) b).
Proof. exact c48_closure_fact. Qed.
Print Assumptions c48_closure.
Theorem c48_has_trait :
  forall attrs lib its depth it b p s,
    hierarchy its -> (List.length its + 8 < depth)%nat ->
    crate_named attrs lib -> In it its -> named lib its b p s ->
    exists out deps,
      dync_mod depth attrs its = Ret out /\
      has_trait (lib_items lib ++ out) (has_of "" (it_name it)) = Some (false, deps, []) /\
      (In (has_of p s) deps <-> b = TDrop \/ inherits its (TCustom (it_name it)) b).
Proof. exact c48_has_trait_fact. Qed.
Print Assumptions c48_has_trait.
Example c48_closure_ex :
  hierarchy mod_ex /\ (List.length mod_ex + 8 < 12)%nat /\
  named "crate" mod_ex TPartialEq "crate::traits::" "PartialEq" /\
  named "crate" mod_ex (TCustom "Named") "" "Named".
Proof.
  split; [apply mod_ex_hierarchy|]. split; [cbn; lia|]. split.
  - apply (named_std "crate" mod_ex). cbn; tauto.
  - apply (named_user "crate" mod_ex named_it). cbn; tauto.
Qed.

Theorem c48_order :
  forall attrs lib its its' depth depth',
    crate_named attrs lib ->
    hierarchy its -> Permutation its its' ->
    (List.length its + 8 < depth)%nat -> (List.length its + 8 < depth')%nat ->
    exists out out',
      dync_mod depth attrs its = Ret out /\ dync_mod depth' attrs its' = Ret out' /\
      Permutation out out' /\ (its = its' -> out = out').
Proof. exact c48_order_fact. Qed.
Print Assumptions c48_order.
Example c48_order_ex :
  crate_named attrs_ex "crate" /\ hierarchy mod_ex /\ Permutation mod_ex [shown_it; named_it; full_it] /\
  mod_ex <> [shown_it; named_it; full_it].
Proof.
  split; [apply attrs_ex_crate|]. split; [apply mod_ex_hierarchy|]. split; [|discriminate].
  apply (Permutation_rev mod_ex).
Qed.

(** ** C49 Drop comes first exactly once *)

Theorem c49_drop_first :
  forall attrs lib its depth it t,
    hierarchy its -> (List.length its + 8 < depth)%nat ->
    crate_named attrs lib -> In it its ->
    exists out rest,
      dync_mod depth attrs its = Ret out /\
      build lib (lib_items lib ++ out) (vtable_of "" (it_name it)) t
      = Some (FDrop (DropOf t) :: rest) /\
      forall p, ~ In (FDrop p) rest.
Proof. exact c49_drop_first_fact. Qed.
Print Assumptions c49_drop_first.
Theorem c49_drop_first_trait :
  forall attrs lib it t,
    ~ In (it_name it) reserved -> it_generics it = false -> it_where it = false ->
    crate_named attrs lib ->
    exists out rest,
      dync_trait attrs it = Ret out /\
      build lib (lib_items lib ++ out) (vtable_of "" (it_name it)) t
      = Some (FDrop (DropOf t) :: rest) /\
      forall p, ~ In (FDrop p) rest.
Proof. exact c49_drop_first_trait_fact. Qed.
Print Assumptions c49_drop_first_trait.
Example c49_drop_first_ex :
  hierarchy mod_ex /\ In named_it mod_ex /\ ~ In (it_name named_it) reserved /\
  it_generics named_it = false /\ it_where named_it = false.
Proof.
  split; [apply mod_ex_hierarchy|]. split; [cbn; tauto|].
  split; [vm_compute; intuition discriminate|]. split; reflexivity.
Qed.

(** ** C50 Macro configuration is honoured *)

Theorem c50_suffix_refuted :
  ~ (forall attrs it s out, setting attrs "suffix" "VTable" s -> dync_trait attrs it = Ret out ->
       exists fs, struct_fields out ("", String.append (it_name it) s) = Some fs).
Proof. exact c50_suffix_refuted_fact. Qed.
Print Assumptions c50_suffix_refuted.
Theorem c50_default_suffix_partial :
  forall attrs it,
    ~ In (it_name it) reserved -> it_generics it = false -> it_where it = false ->
    setting attrs "suffix" "VTable" "VTable" -> (exists lib, crate_named attrs lib) ->
    exists out fs, dync_trait attrs it = Ret out /\
      struct_fields out ("", String.append (it_name it) "VTable") = Some fs.
Proof. exact c50_default_suffix_partial_fact. Qed.
Print Assumptions c50_default_suffix_partial.
Example c50_default_suffix_ex :
  ~ In (it_name shown_it) reserved /\ setting attrs_ex "suffix" "VTable" "VTable" /\
  exists lib, crate_named attrs_ex lib.
Proof.
  split; [vm_compute; intuition discriminate|]. split; [|exists "crate"; apply attrs_ex_crate].
  right. split; [reflexivity|]. intros s [E|[]]. discriminate.
Qed.

Theorem c50_ignored :
  forall s attrs attrs' it its depth,
    dync_trait (attrs ++ Attrib "suffix" (VStr s) :: attrs') it = dync_trait (attrs ++ attrs') it /\
    dync_trait (attrs ++ Attrib "build_vtable_only" VNone :: attrs') it = dync_trait (attrs ++ attrs') it /\
    dync_mod depth (attrs ++ Attrib "suffix" (VStr s) :: attrs') its = dync_mod depth (attrs ++ attrs') its /\
    dync_mod depth (attrs ++ Attrib "build_vtable_only" VNone :: attrs') its
    = dync_mod depth (attrs ++ attrs') its.
Proof. exact c50_ignored_fact. Qed.
Print Assumptions c50_ignored.
(** A library that is reached by a path, as when another crate exports it again, cannot be named. *)
Theorem c50_crate_path_refuted :
  forall attrs lib it its depth,
    setting attrs "dync_crate_name" "dync" lib -> ~ path_start lib ->
    dync_trait attrs it = Panic PAssert /\
    (hierarchy its -> its <> [] -> (List.length its + 8 < depth)%nat ->
     dync_mod depth attrs its = Panic PAssert).
Proof. exact c50_crate_path_refuted_fact. Qed.
Print Assumptions c50_crate_path_refuted.
Example c50_crate_path_ex :
  ~ path_start "crate::dync" /\ ~ path_start "my-dync" /\ ~ path_start "" /\
  path_start "crate" /\ path_start "dync_2" /\
  setting [Attrib "dync_crate_name" (VStr "crate::dync")] "dync_crate_name" "dync" "crate::dync".
Proof.
  repeat split; try (intros H; apply ident_ok_iff in H; discriminate); try (apply ident_ok_iff; reflexivity).
  left. exists [], []. split; [reflexivity|intros s []].
Qed.

(** ** C64 Standard supertraits are recognised however they are written *)

Theorem c64_paths_refuted :
  ~ (forall its depth it out p tr s,
       hierarchy its -> (List.length its + 8 < depth)%nat -> dync_mod depth [] its = Ret out ->
       In it its -> In (BTrait false false p) (it_bounds it) ->
       In (p, tr) std_paths -> In (tr, s) std_traits ->
       implements (lib_items "dync" ++ out) (has_of (lib_mod "dync") s) (vtable_of "" (it_name it))
       = true).
Proof. exact c64_paths_refuted_fact. Qed.
Print Assumptions c64_paths_refuted.
Theorem c64_paths_partial :
  forall attrs lib its depth it p tr s,
    hierarchy its -> (List.length its + 8 < depth)%nat ->
    crate_named attrs lib -> In it its ->
    In (BTrait false false p) (it_bounds it) -> In (p, tr) known_paths -> In (tr, s) std_traits ->
    exists out,
      dync_mod depth attrs its = Ret out /\
      implements (lib_items lib ++ out) (has_of (lib_mod lib) s) (vtable_of "" (it_name it)) = true.
Proof. exact c64_paths_partial_fact. Qed.
Print Assumptions c64_paths_partial.
Example c64_paths_ex :
  hierarchy mod_ex /\ In shown_it mod_ex /\
  In (BTrait false false (plain_path ["std"; "hash"; "Hash"])) (it_bounds shown_it) /\
  In (plain_path ["std"; "hash"; "Hash"], THash) known_paths /\ In (THash, "Hash") std_traits.
Proof. split; [apply mod_ex_hierarchy|]. cbn; tauto. Qed.

(** ** C65 The generated code type-checks *)

Theorem c65_mod_compiles :
  forall attrs lib its depth,
    hierarchy its -> (List.length its + 8 < depth)%nat ->
    crate_named attrs lib ->
    exists out, dync_mod depth attrs its = Ret out /\ compiles lib out.
Proof. exact c65_mod_compiles_fact. Qed.
Print Assumptions c65_mod_compiles.
Example c65_mod_compiles_ex :
  hierarchy mod_ex /\ (List.length mod_ex + 8 < 12)%nat /\
  crate_named attrs_ex "crate".
Proof. split; [apply mod_ex_hierarchy|]. split; [cbn; lia|apply attrs_ex_crate]. Qed.

(** The check decides the typing rules of DeriveSpec.v. *)
Theorem c65_check :
  forall lib its i, item_ok lib its i = true <-> typed lib its i.
Proof. exact c65_check_fact. Qed.
Print Assumptions c65_check.
Theorem c65_library :
  forall lib i, In i (lib_items lib) -> typed lib (lib_items lib) i.
Proof. exact c65_library_fact. Qed.
Print Assumptions c65_library.
(** The check refuses an accessor whose field has another type or does not exist, ... *)
Example c65_check_ex :
  let has i := GHasImpl (lib_q "dync" "HasHash") (lib_q "dync" "HashVTable") false
                 [HasMethod "hash_fn" (lib_q "dync" "HashFn") i] in
  item_ok "dync" (lib_items "dync") (has 1) = true /\
  item_ok "dync" (lib_items "dync") (has 0) = false /\ item_ok "dync" (lib_items "dync") (has 2) = false.
Proof. vm_compute. auto. Qed.

Theorem c65_trait_refuted :
  ~ (forall it out, hierarchy [it] -> it_generics it = false -> it_where it = false ->
       dync_trait [] it = Ret out -> compiles "dync" out).
Proof. exact c65_trait_refuted_fact. Qed.
Print Assumptions c65_trait_refuted.
Theorem c65_trait_partial :
  forall attrs lib it,
    ~ In (it_name it) reserved -> it_generics it = false -> it_where it = false ->
    crate_named attrs lib ->
    (forall b, In b (it_bounds it) -> ~ names b (TCustom (it_name it))) ->
    ((exists b, In b (it_bounds it) /\ names b TEq) ->
     exists b, In b (it_bounds it) /\ names b TPartialEq) ->
    exists out, dync_trait attrs it = Ret out /\ compiles lib out.
Proof. exact c65_trait_partial_fact. Qed.
Print Assumptions c65_trait_partial.
Example c65_trait_ex :
  ~ In (it_name shown_it) reserved /\
  (forall b, In b (it_bounds shown_it) -> ~ names b (TCustom (it_name shown_it))) /\
  ((exists b, In b (it_bounds shown_it) /\ names b TEq) ->
   exists b, In b (it_bounds shown_it) /\ names b TPartialEq).
Proof.
  split; [vm_compute; intuition discriminate|]. split.
  - intros b Hb Hn. apply bound_trait_names in Hn. cbn in Hb.
    destruct Hb as [<-|[<-|[<-|[]]]]; vm_compute in Hn; discriminate.
  - intros (b & Hb & Hn). apply bound_trait_names in Hn. cbn in Hb.
    destruct Hb as [<-|[<-|[<-|[]]]]; vm_compute in Hn; discriminate.
Qed.

(** ** C66 User traits are never mistaken for standard ones *)

Theorem c66_std_names_refuted :
  ~ (forall its depth out it,
       NoDup (map it_name its) -> (List.length its + 8 < depth)%nat -> dync_mod depth [] its = Ret out ->
       In it its ->
       (forall b, In b (it_bounds it) ->
          exists n, b = BTrait false false (plain_path [n]) /\ In (ItemTrait n false false []) its) ->
       forall tr s, In (tr, s) std_traits -> tr <> TDrop ->
         implements (lib_items "dync" ++ out) (has_of (lib_mod "dync") s)
                    (vtable_of "" (it_name it)) = false).
Proof. exact c66_std_names_refuted_fact. Qed.
Print Assumptions c66_std_names_refuted.
(** The mistake is made for each of the eight names: the bounds of a trait so named are ignored,
    wherever it stands in whatever module. *)
Theorem c66_bounds_ignored_refuted :
  forall tr n, In (tr, n) std_traits ->
  forall depth attrs before after g w bs,
    dync_mod depth attrs (before ++ ItemTrait n g w bs :: after)
      = dync_mod depth attrs (before ++ ItemTrait n g w [] :: after) /\
    dync_trait attrs (ItemTrait n g w bs) = dync_trait attrs (ItemTrait n g w []).
Proof. exact c66_bounds_ignored_refuted_fact. Qed.
Print Assumptions c66_bounds_ignored_refuted.
(** [trait Debug: Clone] should offer cloning, and any other name does. *)
Example c66_bounds_ignored_ex :
  let offers n :=
    match dync_trait [] (ItemTrait n false false [plain ["Clone"]]) with
    | Ret out => implements (lib_items "dync" ++ out) (has_of (lib_mod "dync") "Clone") (vtable_of "" n)
    | _ => true
    end in
  In (TDebug, "Debug") std_traits /\ offers "Debug" = false /\ offers "Tr" = true.
Proof. vm_compute. tauto. Qed.
(** For the name [Drop] what is generated does not even compile. *)
Theorem c66_own_drop_refuted :
  forall attrs lib bs, crate_named attrs lib ->
    exists out, dync_trait attrs (ItemTrait "Drop" false false bs) = Ret out /\ ~ compiles lib out.
Proof. exact c66_own_drop_refuted_fact. Qed.
Print Assumptions c66_own_drop_refuted.
(** A trait under another name passes the check. *)
Example c66_own_drop_ex :
  crate_named attrs_ex "crate" /\
  match dync_trait attrs_ex (ItemTrait "Tr" false false [plain ["Clone"]]) with
  | Ret out => forallb (item_ok "crate" (lib_items "crate" ++ out)) out = true
  | _ => False
  end.
Proof. split; [exact attrs_ex_crate|]. vm_compute. reflexivity. Qed.
Theorem c66_module_traits_partial :
  forall its depth it,
    hierarchy its -> (List.length its + 8 < depth)%nat -> In it its ->
    (forall b, In b (it_bounds it) ->
       exists n, b = BTrait false false (plain_path [n]) /\ In (ItemTrait n false false []) its) ->
    exists out, dync_mod depth [] its = Ret out /\
    forall tr s, In (tr, s) std_traits -> tr <> TDrop ->
      implements (lib_items "dync" ++ out) (has_of (lib_mod "dync") s) (vtable_of "" (it_name it)) = false.
Proof. exact c66_module_traits_partial_fact. Qed.
Print Assumptions c66_module_traits_partial.
(** [trait Named: Shown], with [Shown] declared without supertraits. *)
Definition small_ex : list item_trait :=
  [ItemTrait "Named" false false [plain ["Shown"]]; ItemTrait "Shown" false false []].
Example c66_module_traits_ex :
  hierarchy small_ex /\
  forall b, In b [plain ["Shown"]] ->
    exists n, b = BTrait false false (plain_path [n]) /\ In (ItemTrait n false false []) small_ex.
Proof.
  split.
  - split.
    + repeat constructor; cbn; intuition discriminate.
    + intros it [<-|[<-|[]]]; vm_compute; intuition discriminate.
    + apply (ranked_acyclic _ (fun t => match t with
        | TCustom s => if String.eqb s "Named" then 3 else 2 | TEq => 1 | _ => 0 end)%nat); [|cbn; lia].
      intros it b t Hit Hb Hn. apply bound_trait_names in Hn.
      destruct Hit as [<-|[<-|[]]]; cbn in Hb; [|contradiction]. destruct Hb as [<-|[]].
      vm_compute in Hn. inversion Hn; subst t. cbn. lia.
  - intros b [<-|[]]. exists "Shown". cbn; tauto.
Qed.

Theorem c66_library_untouched_partial :
  forall attrs lib its depth s,
    hierarchy its -> (List.length its + 8 < depth)%nat ->
    crate_named attrs lib ->
    exists out, dync_mod depth attrs its = Ret out /\
      struct_fields out (lib_mod lib, s) = None /\ accessors out (lib_mod lib, s) = [] /\
      build_exprs out (lib_mod lib, s) = None /\ has_trait out (lib_mod lib, s) = None /\
      (forall it, In it its -> exists fs, struct_fields out (vtable_of "" (it_name it)) = Some fs).
Proof. exact c66_library_untouched_partial_fact. Qed.
Print Assumptions c66_library_untouched_partial.

(** ** C78 The macro always finishes *)

(** Traits that inherit each other are an error to the compiler, but the macro runs first: its
    recursion never ends, whatever the stack. *)
Theorem c78_cycle_refuted :
  forall depth attrs a b, ~ In a reserved -> ~ In b reserved -> a <> b ->
  dync_mod depth attrs [ItemTrait a false false [BTrait false false (plain_path [b])];
                        ItemTrait b false false [BTrait false false (plain_path [a])]] = Abort.
Proof. exact c78_cycle_refuted_fact. Qed.
Print Assumptions c78_cycle_refuted.
Example c78_cycle_ex : ~ In "A" reserved /\ ~ In "B" reserved /\ "A" <> "B".
Proof. repeat split; vm_compute; intuition discriminate. Qed.
Theorem c78_no_cycle_partial :
  forall attrs its depth, hierarchy its -> (List.length its + 8 < depth)%nat ->
  (forall lib, crate_named attrs lib -> exists out, dync_mod depth attrs its = Ret out) /\
  ((exists out, dync_mod depth attrs its = Ret out) \/ dync_mod depth attrs its = Panic PAssert).
Proof. exact c78_no_cycle_partial_fact. Qed.
Print Assumptions c78_no_cycle_partial.
Example c78_no_cycle_ex :
  hierarchy mod_ex /\ (List.length mod_ex + 8 < 20)%nat /\ crate_named attrs_ex "crate".
Proof. split; [apply mod_ex_hierarchy|]. split; [cbn; lia|apply attrs_ex_crate]. Qed.

(** ** C87 A table need only offer what the program uses *)

Theorem c87_smaller_tables :
  forall (V : Type) (D : HasDrop V) (C : HasClone V) (E : HasPartialEq V) (H : HasHash V) (F : HasDebug V)
    (B : VTable V) (S : Sized V) (P : profile) (G : tenv) prog,
  (forall t, drop_fn (build_vtable t) = DropOf t) ->
  (forall s c, In s prog -> In c (needs s) -> offers c) ->
  acts_full V D C E H F B S P G prog.
Proof. exact c87_smaller_tables_fact. Qed.
Print Assumptions c87_smaller_tables.
(** A program that makes, fills, reads, hashes, prints and drops vectors, but clones and compares nothing. *)
Definition p_shown : list dstep :=
  [DFromVec ty_string 4 [1; 5; 2]%Z; DCall 0 (VPushAs ty_string 9%Z); DCall 0 VHash; DCall 0 VFmt;
   OBox ty_string 8%Z; OHashVal 1; OFmtVal 1; DCall 0 (VReadAs ty_string); DDrop 0].
Lemma p_shown_needs : forall s c, In s p_shown -> In c (needs s) -> c = CapHash \/ c = CapFmt.
Proof.
  intros s c Hs Hc. cbn [p_shown In] in Hs.
  repeat (destruct Hs as [<-|Hs]; [cbn in Hc; intuition congruence|]). contradiction.
Qed.
Example c87_smaller_tables_ex :
  exists s c, In s p_shown /\ In c (needs s).
Proof. exists (DCall 0 VHash), CapHash. split; [cbn; tauto|left; reflexivity]. Qed.
Theorem c87_library :
  forall (P : profile) (G : tenv) prog,
  ((forall s c, In s prog -> In c (needs s) -> c = CapClone) ->
   forall E H F, acts_full CloneVTable _ _ E H F _ _ P G prog) /\
  ((forall s c, In s prog -> In c (needs s) -> c = CapEq) ->
   forall C H F, acts_full PartialEqVTable _ C _ H F _ _ P G prog) /\
  ((forall s c, In s prog -> In c (needs s) -> c = CapEq) ->
   forall C H F, acts_full EqVTable _ C _ H F _ _ P G prog) /\
  ((forall s c, In s prog -> In c (needs s) -> c = CapHash) ->
   forall C E F, acts_full HashVTable _ C E _ F _ _ P G prog) /\
  ((forall s c, In s prog -> In c (needs s) -> c = CapFmt) ->
   forall C E H, acts_full DebugVTable _ C E H _ _ _ P G prog) /\
  ((forall s, In s prog -> needs s = []) ->
   forall C E H F, acts_full DropVTable _ C E H F _ _ P G prog).
Proof. exact c87_library_fact. Qed.
Print Assumptions c87_library.
Example c87_library_ex :
  forall s c, In s [DFromVec ty_string 4 [1; 5; 2]%Z; DClone 0; DDrop 0; OCloneBox (FromVec 1 2)] ->
    In c (needs s) -> c = CapClone.
Proof. intros s c Hs Hc. cbn [In] in Hs. repeat (destruct Hs as [<-|Hs]; [cbn in Hc; intuition congruence|]). contradiction. Qed.
Theorem c87_paired :
  forall (V : Type) (C : HasClone V) (E : HasPartialEq V) (H : HasHash V) (F : HasDebug V)
    (B : VTable V) (S : Sized V) (P : profile) (G : tenv) prog,
  (forall s c, In s prog -> In c (needs s) -> offers c) ->
  acts_full (drop_ptr * V) _ _ _ _ _ _ _ P G prog.
Proof. exact c87_paired_fact. Qed.
Print Assumptions c87_paired.
Example c87_paired_ex :
  offers (V := CloneVTable) (H0 := made_eq) (H1 := made_hash) (H2 := made_fmt) CapClone.
Proof. intros t. cbn. auto. Qed.
Theorem c87_derived :
  forall attrs lib its depth it (P : profile) (G : tenv) prog,
    hierarchy its -> (List.length its + 8 < depth)%nat ->
    crate_named attrs lib -> In it its ->
    (forall s c, In s prog -> In c (needs s) -> inherits its (TCustom (it_name it)) (cap_trait c)) ->
    exists out,
      dync_mod depth attrs its = Ret out /\
      acts_full (gtable lib (lib_items lib ++ out) (vtable_of "" (it_name it))) _ _ _ _ _ _ _ P G prog.
Proof. exact c87_derived_fact. Qed.
Print Assumptions c87_derived.
Theorem c87_derived_accounting :
  forall attrs lib its depth it (P : profile) (G : tenv) prog,
    hierarchy its -> (List.length its + 8 < depth)%nat ->
    crate_named attrs lib -> In it its ->
    wf_tenv G -> clones_ok G ->
    (forall s c, In s prog -> In c (needs s) -> inherits its (TCustom (it_name it)) (cap_trait c)) ->
    exists out,
      dync_mod depth attrs its = Ret out /\
      let V := gtable lib (lib_items lib ++ out) (vtable_of "" (it_name it)) in
      forall rs (st : dstate (V := V)),
      Forall (dstep_typed G) prog -> dyn_in_range P G prog (d_init (V := V)) ->
      drun P G prog (d_init (V := V)) = (rs, st) ->
      (forall u, ~ In (UB u) rs) /\
      (In Abort rs \/
       List.length rs = List.length prog /\
       exists lost again leak,
         Permutation (given G prog rs ++ cloned G (w_trace (d_world st)) ++ again)
                     (stored G st ++ taken G prog rs ++ dropped G (w_trace (d_world st)) ++ lost) /\
         Permutation (w_live (d_world st)) (obj_blocks_of st ++ leak) /\
         (none_left_dropped prog rs -> again = []) /\
         (forall as_, rs = map Ret as_ -> keeps_all prog as_ -> lost = [] /\ leak = [])).
Proof. exact c87_derived_accounting_fact. Qed.
Print Assumptions c87_derived_accounting.
Example c87_derived_ex :
  hierarchy mod_ex /\ (List.length mod_ex + 8 < 20)%nat /\
  crate_named attrs_ex "crate" /\ In shown_it mod_ex /\
  ~ In CapClone (flat_map needs p_shown) /\
  (forall s c, In s p_shown -> In c (needs s) -> inherits mod_ex (TCustom (it_name shown_it)) (cap_trait c)) /\
  wf_tenv edgy_env /\ clones_ok edgy_env /\ Forall (dstep_typed edgy_env) p_shown.
Proof.
  split; [apply mod_ex_hierarchy|]. split; [cbn; lia|]. split; [apply attrs_ex_crate|].
  split; [cbn; tauto|]. split; [vm_compute; intuition discriminate|]. split.
  - intros s c Hs Hc. destruct (p_shown_needs s c Hs Hc) as [-> | ->]; cbn [cap_trait].
    + exact shown_hash.
    + eapply (inherits_bound _ shown_it (plain ["std"; "fmt"; "Debug"])); [cbn; tauto|cbn; tauto|].
      apply bound_trait_names. reflexivity.
  - split; [apply edgy_env_ok|]. split; [apply edgy_env_ok|typed_dprog].
Qed.
(** The run itself, with the table derived for [Shown]. *)
Example c87_derived_run_ex :
  exists out, dync_mod 20 attrs_ex mod_ex = Ret out /\
    let V := gtable "crate" (lib_items "crate" ++ out) (vtable_of "" "Shown") in
    dyn_in_range release edgy_env p_shown (d_init (V := V)) /\
    nth_error (fst (drun release edgy_env p_shown (d_init (V := V)))) 7 =
      Some (Ret (DObs (AVals (Some [1; 5; 2; 9]%Z)))).
Proof.
  eexists. split; [vm_compute; reflexivity|]. split; [vm_compute; intuition (try discriminate; auto)|vm_compute; reflexivity].
Qed.

(** ** C90 Attributes are read as written, and mistakes are reported *)

(** Every list of attributes, written with commas between them and perhaps one at the end. *)
Theorem c90_read :
  forall attrs trailing it depth its,
    parse_attribs (written_attrs attrs trailing) = Some attrs /\
    dync_trait_tokens (written_attrs attrs trailing) it = dync_trait attrs it /\
    dync_mod_tokens depth (written_attrs attrs trailing) its = dync_mod depth attrs its.
Proof. exact c90_read_fact. Qed.
Print Assumptions c90_read.
Example c90_read_ex :
  written_attrs [Attrib "build_vtable_only" VNone; Attrib "dync_crate_name" (VStr "crate")] true =
    [AIdent "build_vtable_only"; AComma; AIdent "dync_crate_name"; AEq; AStr "crate"; AComma].
Proof. reflexivity. Qed.

(** What is accepted in all, and that the rest is refused by both macros. *)
Theorem c90_accepted :
  forall ts l, parse_attribs ts = Some l <-> spelled ts l.
Proof. exact c90_accepted_fact. Qed.
Print Assumptions c90_accepted.
Theorem c90_refused :
  forall ts it depth its, (forall l, ~ spelled ts l) ->
    dync_trait_tokens ts it = Panic PAssert /\ dync_mod_tokens depth ts its = Panic PAssert.
Proof. exact c90_refused_fact. Qed.
Print Assumptions c90_refused.
(** [dync_crate_name = crate], without quotes; a comma too many. *)
Example c90_refused_ex :
  (forall l, ~ spelled [AIdent "dync_crate_name"; AEq; AKeyword "crate"] l) /\
  (forall l, ~ spelled [AIdent "a"; AComma; AComma] l) /\
  spelled [AIdent "suffix"; AStr "Table"; AComma; AIdent "x"; AEq] [Attrib "suffix" (VStr "Table"); Attrib "x" VNone].
Proof.
  split; [|split]; try (intros l H; apply c90_accepted_fact in H; vm_compute in H; discriminate).
  apply c90_accepted_fact. reflexivity.
Qed.

(** A misspelt name or a value of the wrong kind should be reported. *)
Theorem c90_mistakes_refuted :
  ~ (forall attrs trailing it out,
       dync_trait_tokens (written_attrs attrs trailing) it = Ret out -> Forall documented attrs).
Proof. exact c90_mistakes_refuted_fact. Qed.
Print Assumptions c90_mistakes_refuted.
(** Every such attribute is dropped without a word. *)
Theorem c90_mistakes_partial :
  forall l1 a l2 trailing it depth its, ~ documented a ->
    dync_trait_tokens (written_attrs (l1 ++ a :: l2) trailing) it = dync_trait (l1 ++ l2) it /\
    dync_mod_tokens depth (written_attrs (l1 ++ a :: l2) trailing) its = dync_mod depth (l1 ++ l2) its.
Proof. exact c90_mistakes_partial_fact. Qed.
Print Assumptions c90_mistakes_partial.
Example c90_mistakes_ex :
  ~ documented (Attrib "dync_crate_nam" (VStr "my")) /\ ~ documented (Attrib "build_vtable_only" VOther).
Proof. split; intros [H|[(s & H)|(s & H)]]; discriminate. Qed.
