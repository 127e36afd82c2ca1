(** * DeriveFacts: the properties of the macros. *)

From Verif Require Import Base Value DynMachine DynReach.
From Verif Require Import Derive DeriveSem DeriveSpec DeriveProofs DeriveMap DeriveItems DeriveCheck.
From Coq Require Import Ascii Sorting.Sorted Sorting.Permutation Relations.
Local Open Scope string_scope.
Local Open Scope list_scope.

(** ** Configuration *)

Lemma config_crate_last l : forall c lib,
  (exists l1 l2, l = l1 ++ Attrib "dync_crate_name" (VStr lib) :: l2
                 /\ forall s, ~ In (Attrib "dync_crate_name" (VStr s)) l2)
  \/ (lib = cf_crate c /\ forall s, ~ In (Attrib "dync_crate_name" (VStr s)) l) ->
  cf_crate (fold_left config_step l c) = lib.
Proof.
  induction l as [|[k v] l IH]; intros c lib H; cbn [fold_left].
  - destruct H as [(l1 & l2 & E & _)|[-> _]]; [destruct l1; discriminate|reflexivity].
  - apply IH. destruct H as [(l1 & l2 & E & Hn)|[-> Hn]].
    + destruct l1 as [|x l1]; cbn in E; inversion E; subst.
      * right. split; [reflexivity|exact Hn].
      * left. exists l1, l2. auto.
    + right. split.
      * unfold config_step. cbn. destruct v as [|s|]; [destruct (k =? _); reflexivity| |reflexivity].
        destruct (k =? "dync_crate_name") eqn:E.
        -- apply String.eqb_eq in E. subst k. exfalso. apply (Hn s). left. reflexivity.
        -- destruct (k =? "suffix"); reflexivity.
      * intros s Hin. apply (Hn s). right. exact Hin.
Qed.

(** A usable name is one that [Ident::new] and the parser accept. *)
Lemma ident_start_iff c : ident_start c = true <-> letter c \/ c = "_"%char.
Proof.
  unfold ident_start, letter. cbv zeta. rewrite !orb_true_iff, !andb_true_iff, !N.leb_le, N.eqb_eq.
  assert (E : N_of_ascii c = 95 <-> c = "_"%char).
  { split; [intros H; rewrite <- (ascii_N_embedding c), H; reflexivity|intros ->; reflexivity]. }
  rewrite <- E. intuition lia.
Qed.
Lemma ident_char_iff c : ident_char c = true <-> letter c \/ digit c \/ c = "_"%char.
Proof.
  unfold ident_char, digit. cbv zeta. rewrite orb_true_iff, andb_true_iff, !N.leb_le, ident_start_iff.
  intuition lia.
Qed.
Lemma keywords_iff s : In s keywords <-> In s no_path.
Proof.
  assert (K : forall a b, forallb (fun x => existsb (String.eqb x) b) a = true -> forall x, In x a -> In x b).
  { intros a b H x Hx. rewrite forallb_forall in H. specialize (H x Hx). apply existsb_exists in H.
    destruct H as (y & Hy & E). apply String.eqb_eq in E. subst y. exact Hy. }
  split; apply K; reflexivity.
Qed.
Lemma ident_ok_iff s : ident_ok s = true <-> path_start s.
Proof.
  unfold ident_ok, path_start. destruct (list_ascii_of_string s) as [|c r].
  - split; [discriminate|intros (_ & c & r & E & _); discriminate].
  - assert (Hk : existsb (String.eqb s) keywords = true <-> In s no_path).
    { rewrite <- keywords_iff, existsb_exists. split.
      - intros (x & Hx & E). apply String.eqb_eq in E. subst x. exact Hx.
      - intros H. exists s. split; [exact H|apply String.eqb_refl]. }
    rewrite !andb_true_iff, negb_true_iff, ident_start_iff, forallb_forall.
    rewrite <- not_true_iff_false, Hk. split.
    + intros [[H1 H2] H3]. split; [exact H3|]. exists c, r. split; [reflexivity|]. split; [exact H1|].
      apply Forall_forall. intros x Hx. apply ident_char_iff, H2, Hx.
    + intros (H3 & c' & r' & E & H1 & H2). inversion E; subst. split; [|exact H3]. split; [exact H1|].
      intros x Hx. apply ident_char_iff. rewrite Forall_forall in H2. apply H2, Hx.
Qed.

Lemma config_crate attrs lib :
  crate_named attrs lib -> cf_crate (config_parse attrs) = lib /\ ident_ok lib = true.
Proof. intros [H Hp]. split; [apply config_crate_last; exact H|apply ident_ok_iff, Hp]. Qed.

Definition config_eqv (a b : config) : Prop := cf_crate a = cf_crate b.

(** The generated items depend on the crate name only. *)
Lemma has_impls_crate a b m q ss : config_eqv a b ->
  forall idx, has_impls a m q idx ss = has_impls b m q idx ss.
Proof.
  intros E. induction ss as [|st ss IH]; intros idx; [reflexivity|]. cbn.
  rewrite E, !IH. destruct (tm_get st m); [rewrite IH|]; reflexivity.
Qed.

Lemma construct_crate a b m it : config_eqv a b -> construct_items a m it = construct_items b m it.
Proof.
  intros E. unfold construct_items. destruct (tm_get _ m) as [d|]; [|reflexivity].
  rewrite (has_impls_crate a b m _ _ E).
  unfold vtable_struct_def, has_deps, constructor_exprs, conversions. rewrite E. reflexivity.
Qed.

Lemma oconcat_ext {A B} (f g : A -> outcome (list B)) l :
  (forall x, f x = g x) -> oconcat f l = oconcat g l.
Proof. intros E. induction l as [|x l IH]; [reflexivity|]. cbn. rewrite E, IH. reflexivity. Qed.

(** ** The expansion of a module *)

Section Mod.
Context (lib : string) (c : config) (Hc : cf_crate c = lib) (Hid : ident_ok lib = true).

Lemma expand_mod depth attrs its :
  hierarchy its -> (List.length its + 8 < depth)%nat -> config_parse attrs = c ->
  exists m, dync_mod depth attrs its = Ret (flat_map (gen_items lib c m) its)
            /\ tables its (fun s => offered its (TCustom s)) m.
Proof.
  intros Hh Hd Ha. destruct (flatten_tables depth its Hh Hd) as (m & E & Ht).
  exists (fill_drop m). split; [|exact Ht]. unfold dync_mod. rewrite E, Ha. cbn [obind].
  apply (expand_eq lib c Hc its _ _ Ht (h_names _ Hh) its Hid). intros x Hx; exact Hx.
Qed.
End Mod.

Lemma offered_closed its a x y :
  offered its (TCustom a) (TCustom x) -> offered its (TCustom x) y -> offered its (TCustom a) y.
Proof.
  intros [E|Ha] Hx; [discriminate|]. destruct Hx as [->|Hx]; [left; reflexivity|].
  right. eapply inherits_trans; eassumption.
Qed.

Lemma offered_eq its a : offered its a TEq -> offered its a TPartialEq.
Proof.
  intros [E|H]; [discriminate|]. right. eapply inherits_trans; [exact H|apply inherits_eq].
Qed.

Lemma offered_trans_inherits its a b c : inherits its a b -> offered its b c -> offered its a c.
Proof.
  intros Ha [->|Hb]; [left; reflexivity|]. right. eapply inherits_trans; eassumption.
Qed.

Lemma offered_drop its a : offered its a TDrop.
Proof. left; reflexivity. Qed.

Lemma offered_irr its it : hierarchy its -> ~ offered its (TCustom (it_name it)) (TCustom (it_name it)).
Proof. intros Hh [E|H]; [discriminate|]. exact (h_acyclic _ Hh _ H). Qed.

(** [named] gives the names used by the macro. *)
Lemma named_known lib its t p s : named lib its t p s ->
  known its t /\ p = kprefix lib t /\ s = kname t.
Proof.
  intros H. destruct H as [t s H|it Hit].
  - cbn in H. repeat match goal with H : _ \/ _ |- _ => destruct H as [H|H] end; try contradiction;
      inversion H; subst; repeat split; reflexivity.
  - repeat split. cbn. apply in_map. exact Hit.
Qed.

(** A hierarchy in which every bound names a trait of lower rank has no cycle. *)
Lemma ranked_acyclic its (rank : trait -> nat) :
  (forall it b t, In it its -> In b (it_bounds it) -> names b t ->
     (rank t < rank (TCustom (it_name it)))%nat) ->
  (rank TPartialEq < rank TEq)%nat ->
  forall t, ~ inherits its t t.
Proof.
  intros Hb He t H.
  assert (K : forall a b, inherits its a b -> (rank b < rank a)%nat).
  { intros a b Hi. induction Hi; [eauto|exact He|lia]. }
  apply K in H. lia.
Qed.

(** *** C46 *)

Lemma c46_dispatch_fact :
  forall attrs lib its depth it t,
    hierarchy its -> (List.length its + 8 < depth)%nat ->
    crate_named attrs lib -> In it its ->
    exists out tbl,
      dync_mod depth attrs its = Ret out /\
      let P := lib_items lib ++ out in
      let q := vtable_of "" (it_name it) in
      build lib P q t = Some tbl /\
      (forall n tr f, In (n, tr, f) functions -> offered its (TCustom (it_name it)) tr ->
         call_accessor P q tbl n = Some (f t)) /\
      (forall n tr f, In (n, tr, f) functions -> ~ offered its (TCustom (it_name it)) tr ->
         accessor P q n = None) /\
      (forall n, (forall tr f, ~ In (n, tr, f) functions) -> accessor P q n = None).
Proof.
  intros attrs lib its depth it t Hh Hd Hs Hit. destruct (config_crate _ _ Hs) as [Hc Hid]; clear Hs; rename Hc into Hs.
  destruct (expand_mod lib _ Hs Hid depth attrs its Hh Hd eq_refl) as (m & E & Ht).
  destruct (dispatch_fact lib _ Hs its _ m Ht (h_distinct _ Hh) it t Hit) as (tbl & H1 & H2).
  exists (flat_map (gen_items lib (config_parse attrs) m) its), tbl. split; [exact E|].
  split; [exact H1|exact H2].
Qed.

Lemma expand_trait lib attrs it :
  cf_crate (config_parse attrs) = lib -> ident_ok lib = true ->
  ~ In (it_name it) reserved -> it_generics it = false -> it_where it = false ->
  exists m, dync_trait attrs it = Ret (flat_map (gen_items lib (config_parse attrs) m) [it])
            /\ tables [it] (offered_directly it) m.
Proof.
  intros Hc Hid Hr Hg Hw. pose proof (trait_tables it Hr) as Ht. eexists. split; [|exact Ht].
  unfold dync_trait, validate_item_trait. rewrite Hg, Hw. cbn [negb assert_ obind].
  rewrite (construct_eq lib _ Hc [it] _ _ Ht); [|intros x [<-|[]]; exact Hr|exact Hid|left; reflexivity].
  cbn [flat_map]. rewrite app_nil_r. reflexivity.
Qed.

Lemma single_distinct (it : item_trait) : NoDup (map it_name [it]).
Proof. cbn. constructor; [intros []|constructor]. Qed.

Lemma c46_dispatch_trait_fact :
  forall attrs lib it t,
    ~ In (it_name it) reserved -> it_generics it = false -> it_where it = false ->
    crate_named attrs lib ->
    exists out tbl,
      dync_trait attrs it = Ret out /\
      let P := lib_items lib ++ out in
      let q := vtable_of "" (it_name it) in
      let direct tr := tr = TDrop \/ exists b, In b (it_bounds it) /\ names b tr in
      build lib P q t = Some tbl /\
      (forall n tr f, In (n, tr, f) functions -> direct tr ->
         call_accessor P q tbl n = Some (f t)) /\
      (forall n tr f, In (n, tr, f) functions -> ~ direct tr -> accessor P q n = None) /\
      (forall n, (forall tr f, ~ In (n, tr, f) functions) -> accessor P q n = None).
Proof.
  intros attrs lib it t Hr Hg Hw Hs. destruct (config_crate _ _ Hs) as [Hc Hid]; clear Hs; rename Hc into Hs.
  destruct (expand_trait lib attrs it Hs Hid Hr Hg Hw) as (m & E & Ht).
  destruct (dispatch_fact lib _ Hs [it] _ m Ht (single_distinct it) it t (or_introl eq_refl))
    as (tbl & H1 & H2).
  eexists _, tbl. split; [exact E|]. split; [exact H1|exact H2].
Qed.

(** The library's own tables: [DropVTable], [CloneVTable] ... *)
Lemma qname_same a x y : qname_eqb (a, x) (a, y) = (x =? y).
Proof. unfold qname_eqb. cbn [fst snd]. now rewrite String.eqb_refl. Qed.

Lemma accessors_flat its q :
  accessors its q =
  flat_map (fun i => match i with GHasImpl _ q' _ ms => if qname_eqb q q' then ms else [] | _ => [] end) its.
Proof.
  induction its as [|i its IH]; [reflexivity|]. destruct i; cbn; rewrite ?IH; try reflexivity.
  destruct (qname_eqb q _); reflexivity.
Qed.

Ltac library_items :=
  unfold lib_items, lib_has_traits, lib_tables, lib_accessors, lib_table, lib_q, vtable_of;
  cbn [build_exprs flat_map app map String.append]; rewrite !qname_same;
  cbn [String.eqb Ascii.eqb Bool.eqb app].

Lemma c46_library_tables_fact :
  forall lib b s t, In (b, s) std_traits ->
    let P := lib_items lib in
    let q := vtable_of (lib_mod lib) s in
    let has tr := tr = TDrop \/ tr = b \/ inherits [] b tr in
    exists tbl,
      build lib P q t = Some tbl /\
      (forall n tr f, In (n, tr, f) functions -> has tr -> call_accessor P q tbl n = Some (f t)) /\
      (forall n tr f, In (n, tr, f) functions -> ~ has tr -> accessor P q n = None).
Proof.
  intros lib b s t Hin P q has. subst P q has.
  assert (Hi : forall a c, inherits [] a c -> a = TEq /\ c = TPartialEq).
  { intros a c H. induction H as [it x y Hf| |a x c H1 [-> ->] H2 [Hx _]]; [destruct Hf|now split|discriminate]. }
  cbn [std_traits In] in Hin.
  repeat (destruct Hin as [Hin|Hin]; [injection Hin as <- <-|]); try contradiction;
    (eexists; split;
     [unfold build; library_items; cbn -[lib_fun]; unfold lib_fun; cbn [fst snd]; rewrite !String.eqb_refl;
      vm_compute; reflexivity|]);
    unfold call_accessor, accessor; rewrite !accessors_flat; library_items;
    (split; intros n tr f Hf Hh; cbn [functions In] in Hf;
     repeat (destruct Hf as [Hf|Hf]; [injection Hf as <- <- <-|]); try contradiction;
     first [vm_compute; reflexivity
           |exfalso; destruct Hh as [Hh|[Hh|Hh]]; [discriminate|discriminate|apply Hi in Hh; intuition discriminate]
           |exfalso; apply Hh; first [left; reflexivity|right; left; reflexivity|right; right; apply inherits_eq]]).
Qed.

(** A generated table that offers the standard traits is a table in the sense of the theorems about
    [VecDyn] and [Value]. *)
Lemma c46_generated_table_fact :
  forall attrs lib its depth it,
    hierarchy its -> (List.length its + 8 < depth)%nat ->
    crate_named attrs lib -> In it its ->
    (forall tr, In tr [TClone; TPartialEq; THash; TDebug] -> inherits its (TCustom (it_name it)) tr) ->
    exists out,
      dync_mod depth attrs its = Ret out /\
      Lawful (gtable lib (lib_items lib ++ out) (vtable_of "" (it_name it))).
Proof.
  intros attrs lib its depth it Hh Hd Hs Hit Hall. destruct (config_crate _ _ Hs) as [Hc Hid]; clear Hs; rename Hc into Hs.
  destruct (expand_mod lib _ Hs Hid depth attrs its Hh Hd eq_refl) as (m & E & Ht).
  eexists. split; [exact E|].
  assert (K : forall n tr f t, In (n, tr, f) functions -> offered its (TCustom (it_name it)) tr ->
    exists tbl, build lib (lib_items lib ++ flat_map (gen_items lib (config_parse attrs) m) its)
                  (vtable_of "" (it_name it)) t = Some tbl
    /\ call_accessor (lib_items lib ++ flat_map (gen_items lib (config_parse attrs) m) its)
                  (vtable_of "" (it_name it)) tbl n = Some (f t)).
  { intros n tr f t Hf Ho.
    destruct (dispatch_fact lib _ Hs its _ m Ht (h_distinct _ Hh) it t Hit) as (tbl & H1 & H2 & _).
    exists tbl. split; [exact H1|]. eapply H2; eassumption. }
  assert (Ho : forall tr, In tr [TClone; TPartialEq; THash; TDebug] ->
                 offered its (TCustom (it_name it)) tr) by (intros; right; auto).
  split; intros t; cbn [drop_fn clone_fn clone_from_fn clone_into_raw_fn eq_fn hash_fn fmt_fn
      gtable_drop gtable_clone gtable_eq gtable_hash gtable_fmt build_vtable gtable_build];
    unfold g_call; cbn [g_fields].
  - destruct (K "drop_fn" TDrop _ t ltac:(cbn; tauto) (or_introl eq_refl)) as (tbl & -> & ->). reflexivity.
  - destruct (K "clone_fn" TClone _ t ltac:(cbn; tauto) (Ho TClone ltac:(cbn; tauto))) as (tbl & -> & ->). reflexivity.
  - destruct (K "clone_from_fn" TClone _ t ltac:(cbn; tauto) (Ho TClone ltac:(cbn; tauto))) as (tbl & -> & ->). reflexivity.
  - destruct (K "clone_into_raw_fn" TClone _ t ltac:(cbn; tauto) (Ho TClone ltac:(cbn; tauto))) as (tbl & -> & ->). reflexivity.
  - destruct (K "eq_fn" TPartialEq _ t ltac:(cbn; tauto) (Ho TPartialEq ltac:(cbn; tauto))) as (tbl & -> & ->). reflexivity.
  - destruct (K "hash_fn" THash _ t ltac:(cbn; tauto) (Ho THash ltac:(cbn; tauto))) as (tbl & -> & ->). reflexivity.
  - destruct (K "fmt_fn" TDebug _ t ltac:(cbn; tauto) (Ho TDebug ltac:(cbn; tauto))) as (tbl & -> & ->). reflexivity.
Qed.

(** *** C47 *)

Lemma c47_base_tables_fact :
  forall attrs lib its depth it b p s t,
    hierarchy its -> (List.length its + 8 < depth)%nat ->
    crate_named attrs lib -> In it its ->
    offered its (TCustom (it_name it)) b -> named lib its b p s ->
    exists out ta tb,
      dync_mod depth attrs its = Ret out /\
      let P := lib_items lib ++ out in
      build lib P (vtable_of "" (it_name it)) t = Some ta /\
      build lib P (vtable_of p s) t = Some tb /\
      convert P (vtable_of "" (it_name it)) (vtable_of p s) ta = Some tb.
Proof.
  intros attrs lib its depth it b p s t Hh Hd Hs Hit Ho Hn. destruct (config_crate _ _ Hs) as [Hc Hid]; clear Hs; rename Hc into Hs.
  destruct (expand_mod lib _ Hs Hid depth attrs its Hh Hd eq_refl) as (m & E & Ht).
  destruct (named_known _ _ _ _ _ Hn) as (Hk & -> & ->).
  destruct (convert_fact lib _ Hs its _ m Ht (h_distinct _ Hh) it b t Hit Hk Ho)
    as (ta & tb & H1 & H2 & H3).
  - intros x Hx y Hy. exact (offered_closed _ _ _ _ Hx Hy).
  - apply offered_drop.
  - apply offered_eq.
  - eexists _, ta, tb. split; [exact E|]. split; [exact H1|]. split; [exact H2|exact H3].
Qed.

(** Two steps or one: the same table. *)
Lemma c47_conversions_agree_fact :
  forall attrs lib its depth a b c p s t,
    hierarchy its -> (List.length its + 8 < depth)%nat ->
    crate_named attrs lib -> In a its -> In b its ->
    inherits its (TCustom (it_name a)) (TCustom (it_name b)) ->
    offered its (TCustom (it_name b)) c -> named lib its c p s ->
    exists out ta tb tc,
      dync_mod depth attrs its = Ret out /\
      let P := lib_items lib ++ out in
      build lib P (vtable_of "" (it_name a)) t = Some ta /\
      convert P (vtable_of "" (it_name a)) (vtable_of "" (it_name b)) ta = Some tb /\
      convert P (vtable_of "" (it_name b)) (vtable_of p s) tb = Some tc /\
      convert P (vtable_of "" (it_name a)) (vtable_of p s) ta = Some tc.
Proof.
  intros attrs lib its depth a b c p s t Hh Hd Hs Ha Hb Hab Hbc Hn.
  destruct (c47_base_tables_fact attrs lib its depth a (TCustom (it_name b)) "" (it_name b) t
              Hh Hd Hs Ha (or_intror Hab) (named_user _ _ _ Hb)) as (out & ta & tb & E & A1 & A2 & A3).
  destruct (c47_base_tables_fact attrs lib its depth b c p s t Hh Hd Hs Hb Hbc Hn)
    as (out' & tb' & tc & E' & B1 & B2 & B3).
  destruct (c47_base_tables_fact attrs lib its depth a c p s t Hh Hd Hs Ha
              (offered_trans_inherits _ _ _ _ Hab Hbc) Hn) as (out'' & ta' & tc' & E'' & C1 & C2 & C3).
  cbn zeta in *. rewrite E in E', E''. inversion E'; inversion E''; subst out' out''.
  rewrite A1 in C1. inversion C1; subst ta'. rewrite A2 in B1. inversion B1; subst tb'.
  rewrite B2 in C2. inversion C2; subst tc'. exists out, ta, tb, tc. auto.
Qed.

(** *** C48 *)

Lemma c48_closure_fact :
  forall attrs lib its depth it b p s,
    hierarchy its -> (List.length its + 8 < depth)%nat ->
    crate_named attrs lib -> In it its -> named lib its b p s ->
    exists out,
      dync_mod depth attrs its = Ret out /\
      (implements (lib_items lib ++ out) (has_of p s) (vtable_of "" (it_name it)) = true
       <-> b = TCustom (it_name it) \/ b = TDrop \/ inherits its (TCustom (it_name it)) b).
Proof.
  intros attrs lib its depth it b p s Hh Hd Hs Hit Hn. destruct (config_crate _ _ Hs) as [Hc Hid]; clear Hs; rename Hc into Hs.
  destruct (expand_mod lib _ Hs Hid depth attrs its Hh Hd eq_refl) as (m & E & Ht).
  destruct (named_known _ _ _ _ _ Hn) as (Hk & -> & ->).
  eexists. split; [exact E|].
  exact (implements_own lib _ Hs its _ m Ht (h_distinct _ Hh) it b Hit Hk).
Qed.

(** The supertraits of the generated accessor trait are the inherited ones. *)
Lemma c48_has_trait_fact :
  forall attrs lib its depth it b p s,
    hierarchy its -> (List.length its + 8 < depth)%nat ->
    crate_named attrs lib -> In it its -> named lib its b p s ->
    exists out deps,
      dync_mod depth attrs its = Ret out /\
      has_trait (lib_items lib ++ out) (has_of "" (it_name it)) = Some (false, deps, []) /\
      (In (has_of p s) deps <-> b = TDrop \/ inherits its (TCustom (it_name it)) b).
Proof.
  intros attrs lib its depth it b p s Hh Hd Hs Hit Hn. destruct (config_crate _ _ Hs) as [Hc Hid]; clear Hs; rename Hc into Hs.
  destruct (expand_mod lib _ Hs Hid depth attrs its Hh Hd eq_refl) as (m & E & Ht).
  destruct (named_known _ _ _ _ _ Hn) as (Hk & -> & ->).
  eexists _, _. split; [exact E|]. split.
  - apply (known_has_trait lib _ its m (h_distinct _ Hh) (TCustom (it_name it))).
    cbn. apply in_map. exact Hit.
  - cbn [kdeps]. rewrite (has_deps_in lib _ Hs its _ m Ht).
    destruct (sup_facts its _ m Ht it Hit) as (_ & _ & Hsup). split.
    + intros (st & Hin & _ & E'). apply hname_inj in E'. subst st. apply Hsup. exact Hin.
    + intros Ho. exists b. split; [apply Hsup; exact Ho|]. auto.
Qed.

(** Maps with the same entries give the same items. *)
Section Ext.
Context (c : config) (m m' : trait_map) (He : forall k, tm_get k m = tm_get k m').

Lemma methods_of_ext t : methods_of m t = methods_of m' t.
Proof. unfold methods_of. rewrite He. reflexivity. Qed.

Lemma has_impls_ext q ss : forall idx, has_impls c m q idx ss = has_impls c m' q idx ss.
Proof.
  induction ss as [|st ss IH]; intros idx; [reflexivity|]. cbn. rewrite He.
  destruct (tm_get st m'); rewrite IH; reflexivity.
Qed.

Lemma flat_map_ext' {A B} (f g : A -> list B) l : (forall x, f x = g x) -> flat_map f l = flat_map g l.
Proof. intros E. induction l as [|x l IH]; [reflexivity|]. cbn. rewrite E, IH. reflexivity. Qed.

Lemma gen_items_ext lib it : gen_items lib c m it = gen_items lib c m' it.
Proof.
  unfold gen_items.
  assert (Hs : sup m (it_name it) = sup m' (it_name it)) by (unfold sup; rewrite He; reflexivity).
  rewrite Hs, has_impls_ext. unfold has_deps, constructor_exprs, conversions.
  f_equal. f_equal.
  - f_equal; [f_equal; apply flat_map_ext'; intros x; rewrite He; reflexivity|].
    f_equal. f_equal. f_equal. f_equal. f_equal. apply flat_map_ext'; intros x; rewrite He; reflexivity.
  - apply flat_map_ext'. intros x. rewrite He. destruct (tm_get x m') as [d|]; [|reflexivity].
    unfold conversion_exprs. do 3 f_equal. apply flat_map_ext'. intros y. rewrite methods_of_ext. reflexivity.
Qed.
End Ext.

Lemma tables_ext its its' off off' m m' :
  tables its off m -> tables its' off' m' ->
  (forall it, In it its <-> In it its') -> (forall s x, off s x <-> off' s x) ->
  forall k, tm_get k m = tm_get k m'.
Proof.
  intros Ht Ht' Hi Ho k. destruct (std k) eqn:Hk.
  - rewrite (tb_std _ _ _ Ht), (tb_std _ _ _ Ht') by exact Hk. reflexivity.
  - destruct k; try discriminate.
    destruct (in_dec string_dec name (map it_name its)) as [Hin|Hin].
    + apply in_map_iff in Hin. destruct Hin as (it & <- & Hit).
      destruct (tb_user _ _ _ Ht it Hit) as (ss & -> & Hs & Hss).
      destruct (tb_user _ _ _ Ht' it (proj1 (Hi it) Hit)) as (ss' & -> & Hs' & Hss').
      do 2 f_equal. apply sorted_unique; auto. intros x. rewrite Hss, Hss'. apply Ho.
    + rewrite (tb_other _ _ _ Ht) by exact Hin. rewrite (tb_other _ _ _ Ht'); [reflexivity|].
      intros H. apply Hin. apply in_map_iff in H. destruct H as (it & <- & Hit). apply in_map.
      apply Hi. exact Hit.
Qed.

Lemma inherits_incl its its' a b : incl its its' -> inherits its a b -> inherits its' a b.
Proof.
  intros Hi H. induction H.
  - eapply inherits_bound; eauto.
  - apply inherits_eq.
  - eapply inherits_trans; eassumption.
Qed.

Lemma c48_order_fact :
  forall attrs lib its its' depth depth',
    crate_named attrs lib ->
    hierarchy its -> Permutation its its' ->
    (List.length its + 8 < depth)%nat -> (List.length its + 8 < depth')%nat ->
    exists out out',
      dync_mod depth attrs its = Ret out /\ dync_mod depth' attrs its' = Ret out' /\
      Permutation out out' /\ (its = its' -> out = out').
Proof.
  intros attrs lib its its' depth depth' Hs Hh Hp Hd Hd'.
  destruct (config_crate _ _ Hs) as [Hc Hid]. rewrite <- Hc in Hid.
  assert (Hh' : hierarchy its').
  { destruct Hh as [H1 H2 H3]. split.
    - eapply Permutation_NoDup; [|exact H1]. apply Permutation_map. exact Hp.
    - intros it Hit. apply H2. eapply Permutation_in; [|exact Hit]. apply Permutation_sym. exact Hp.
    - intros t Ht. apply (H3 t). eapply inherits_incl; [|exact Ht]. intros x Hx.
      eapply Permutation_in; [|exact Hx]. apply Permutation_sym. exact Hp. }
  rewrite (Permutation_length Hp) in Hd'.
  destruct (expand_mod _ _ eq_refl Hid depth attrs its Hh Hd eq_refl) as (m & E & Ht).
  destruct (expand_mod _ _ eq_refl Hid depth' attrs its' Hh' Hd' eq_refl) as (m' & E' & Ht').
  assert (He : forall k, tm_get k m = tm_get k m').
  { eapply tables_ext; [exact Ht|exact Ht'| |].
    - intros it. split; apply Permutation_in; [exact Hp|apply Permutation_sym; exact Hp].
    - intros s x. unfold offered. split; (intros [H|H]; [left; exact H|right]);
        (eapply inherits_incl; [|exact H]); intros y Hy; (eapply Permutation_in; [|exact Hy]);
        [exact Hp|apply Permutation_sym; exact Hp]. }
  eexists _, _. split; [exact E|]. split; [exact E'|].
  assert (Eg : flat_map (gen_items (cf_crate (config_parse attrs)) (config_parse attrs) m') its'
               = flat_map (gen_items (cf_crate (config_parse attrs)) (config_parse attrs) m) its').
  { apply flat_map_ext'. intros it. symmetry. apply gen_items_ext. exact He. }
  rewrite Eg. split.
  - apply Permutation_flat_map. exact Hp.
  - intros <-. reflexivity.
Qed.

(** *** C49 *)

Lemma c49_drop_first_fact :
  forall attrs lib its depth it t,
    hierarchy its -> (List.length its + 8 < depth)%nat ->
    crate_named attrs lib -> In it its ->
    exists out rest,
      dync_mod depth attrs its = Ret out /\
      build lib (lib_items lib ++ out) (vtable_of "" (it_name it)) t
      = Some (FDrop (DropOf t) :: rest) /\
      forall p, ~ In (FDrop p) rest.
Proof.
  intros attrs lib its depth it t Hh Hd Hs Hit. destruct (config_crate _ _ Hs) as [Hc Hid]; clear Hs; rename Hc into Hs.
  destruct (expand_mod lib _ Hs Hid depth attrs its Hh Hd eq_refl) as (m & E & Ht).
  destruct (drop_first_fact lib _ Hs its _ m Ht (h_distinct _ Hh) it t Hit (offered_drop _ _))
    as (rest & H1 & H2).
  eexists _, rest. split; [exact E|]. split; [exact H1|exact H2].
Qed.

Lemma c49_drop_first_trait_fact :
  forall attrs lib it t,
    ~ In (it_name it) reserved -> it_generics it = false -> it_where it = false ->
    crate_named attrs lib ->
    exists out rest,
      dync_trait attrs it = Ret out /\
      build lib (lib_items lib ++ out) (vtable_of "" (it_name it)) t
      = Some (FDrop (DropOf t) :: rest) /\
      forall p, ~ In (FDrop p) rest.
Proof.
  intros attrs lib it t Hr Hg Hw Hs. destruct (config_crate _ _ Hs) as [Hc Hid]; clear Hs; rename Hc into Hs.
  destruct (expand_trait lib attrs it Hs Hid Hr Hg Hw) as (m & E & Ht).
  destruct (drop_first_fact lib _ Hs [it] _ m Ht (single_distinct it) it t (or_introl eq_refl)
              (or_introl eq_refl)) as (rest & H1 & H2).
  eexists _, rest. split; [exact E|]. split; [exact H1|exact H2].
Qed.

(** *** C50 *)

Lemma c50_suffix_refuted_fact :
  ~ (forall attrs it s out, setting attrs "suffix" "VTable" s -> dync_trait attrs it = Ret out ->
       exists fs, struct_fields out ("", String.append (it_name it) s) = Some fs).
Proof.
  intros H.
  destruct (H [Attrib "suffix" (VStr "Table")] (ItemTrait "Tr" false false []) "Table" _
              ltac:(left; exists [], []; split; [reflexivity|intros s []])
              ltac:(vm_compute; reflexivity)) as (fs & E).
  vm_compute in E. discriminate.
Qed.

(** The library can be named by an identifier only, not by a path such as [crate::reexport]. *)
Lemma c50_crate_path_refuted_fact :
  forall attrs lib it its depth,
    setting attrs "dync_crate_name" "dync" lib -> ~ path_start lib ->
    dync_trait attrs it = Panic PAssert /\
    (hierarchy its -> its <> [] -> (List.length its + 8 < depth)%nat ->
     dync_mod depth attrs its = Panic PAssert).
Proof.
  intros attrs lib it its depth H Hp. assert (Hs : cf_crate (config_parse attrs) = lib) by (apply config_crate_last; exact H).
  assert (Hid : ident_ok (cf_crate (config_parse attrs)) = false).
  { apply not_true_iff_false. rewrite Hs. intros Hi. apply Hp, ident_ok_iff, Hi. }
  assert (Hk : forall m x, construct_items (config_parse attrs) m x = Panic PAssert).
  { intros m x. unfold construct_items. destruct (tm_get _ m); [|reflexivity]. rewrite Hid. reflexivity. }
  split.
  - unfold dync_trait, validate_item_trait. destruct (it_generics it), (it_where it); try reflexivity.
    cbn [negb assert_ obind]. apply Hk.
  - intros Hh Hn Hd. destruct (flatten_tables depth its Hh Hd) as (m & E & _).
    unfold dync_mod. rewrite E. cbn [obind]. destruct its as [|x r]; [congruence|].
    cbn [oconcat]. rewrite Hk. reflexivity.
Qed.

(** The default suffix, and what an attribute can change: only the name of the crate. *)
Lemma c50_default_suffix_partial_fact :
  forall attrs it,
    ~ In (it_name it) reserved -> it_generics it = false -> it_where it = false ->
    setting attrs "suffix" "VTable" "VTable" -> (exists lib, crate_named attrs lib) ->
    exists out fs, dync_trait attrs it = Ret out /\
      struct_fields out ("", String.append (it_name it) "VTable") = Some fs.
Proof.
  intros attrs it Hr Hg Hw _ (lib & Hs). destruct (config_crate _ _ Hs) as [Hc Hid]. rewrite <- Hc in Hid.
  destruct (expand_trait _ attrs it eq_refl Hid Hr Hg Hw) as (m & E & Ht).
  destruct (gen_own _ (config_parse attrs) eq_refl [it] _ m Ht it) as (H & _).
  eexists _, _. split; [exact E|]. cbn [flat_map]. rewrite app_nil_r. exact H.
Qed.

Lemma c50_ignored_fact :
  forall s attrs attrs' it its depth,
    dync_trait (attrs ++ Attrib "suffix" (VStr s) :: attrs') it = dync_trait (attrs ++ attrs') it /\
    dync_trait (attrs ++ Attrib "build_vtable_only" VNone :: attrs') it = dync_trait (attrs ++ attrs') it /\
    dync_mod depth (attrs ++ Attrib "suffix" (VStr s) :: attrs') its = dync_mod depth (attrs ++ attrs') its /\
    dync_mod depth (attrs ++ Attrib "build_vtable_only" VNone :: attrs') its
    = dync_mod depth (attrs ++ attrs') its.
Proof.
  intros s attrs attrs' it its depth.
  assert (Hf : forall l a b, config_eqv a b -> config_eqv (fold_left config_step l a) (fold_left config_step l b)).
  { induction l as [|[k v] l IH]; intros a b E; [exact E|]. cbn [fold_left]. apply IH.
    unfold config_eqv, config_step in *. cbn. destruct v as [|z|]; auto.
    - destruct (k =? _); auto.
    - destruct (k =? "dync_crate_name"); [reflexivity|]. destruct (k =? "suffix"); auto. }
  assert (Hx : forall x, (forall a, config_eqv (config_step a x) a) ->
                 config_eqv (config_parse (attrs ++ x :: attrs')) (config_parse (attrs ++ attrs'))).
  { intros x Hx. unfold config_parse. rewrite !fold_left_app. cbn [fold_left]. apply Hf. apply Hx. }
  assert (H1 := Hx (Attrib "suffix" (VStr s)) (fun a => eq_refl)).
  assert (H2 := Hx (Attrib "build_vtable_only" VNone) (fun a => eq_refl)).
  unfold dync_trait, dync_mod. repeat split.
  - rewrite (construct_crate _ _ _ _ H1). reflexivity.
  - rewrite (construct_crate _ _ _ _ H2). reflexivity.
  - destruct (fill_and_flatten _ _ _); try reflexivity. apply oconcat_ext. intros x.
    apply construct_crate. exact H1.
  - destruct (fill_and_flatten _ _ _); try reflexivity. apply oconcat_ext. intros x.
    apply construct_crate. exact H2.
Qed.

(** Two small hierarchies. *)
Lemma eq_hierarchy :
  hierarchy [ItemTrait "A" false false [BTrait false false (plain_path ["Eq"])]].
Proof.
  split.
  - apply single_distinct.
  - intros it [<-|[]]. vm_compute. intuition discriminate.
  - apply (ranked_acyclic _ (fun t => match t with TCustom _ => 2 | TEq => 1 | _ => 0 end)%nat);
      [|cbn; lia].
    intros it b t [<-|[]] [<-|[]] Hn. apply bound_trait_names in Hn. vm_compute in Hn.
    inversion Hn; subst t. cbn. lia.
Qed.

Lemma hash_hierarchy :
  hierarchy [ItemTrait "Tr" false false [BTrait false false (plain_path ["Hash"])]].
Proof.
  split.
  - apply single_distinct.
  - intros it [<-|[]]. vm_compute. intuition discriminate.
  - apply (ranked_acyclic _ (fun t => match t with TCustom s => if String.eqb s "Tr" then 2 else 1 | TEq => 1 | _ => 0 end)%nat);
      [|cbn; lia].
    intros it b t [<-|[]] [<-|[]] Hn. apply bound_trait_names in Hn. vm_compute in Hn.
    inversion Hn; subst t. cbn. lia.
Qed.

(** *** C64 *)

Lemma c64_paths_refuted_fact :
  ~ (forall its depth it out p tr s,
       hierarchy its -> (List.length its + 8 < depth)%nat -> dync_mod depth [] its = Ret out ->
       In it its -> In (BTrait false false p) (it_bounds it) ->
       In (p, tr) std_paths -> In (tr, s) std_traits ->
       implements (lib_items "dync" ++ out) (has_of (lib_mod "dync") s) (vtable_of "" (it_name it))
       = true).
Proof.
  intros H.
  specialize (H [ItemTrait "Tr" false false [BTrait false false (plain_path ["Hash"])]] 20%nat
                (ItemTrait "Tr" false false [BTrait false false (plain_path ["Hash"])]) _
                (plain_path ["Hash"]) THash "Hash" hash_hierarchy ltac:(cbn; lia)
                ltac:(vm_compute; reflexivity) ltac:(cbn; tauto) ltac:(cbn; tauto) ltac:(cbn; tauto)
                ltac:(cbn; tauto)).
  vm_compute in H. discriminate.
Qed.

Lemma c64_paths_partial_fact :
  forall attrs lib its depth it p tr s,
    hierarchy its -> (List.length its + 8 < depth)%nat ->
    crate_named attrs lib -> In it its ->
    In (BTrait false false p) (it_bounds it) -> In (p, tr) known_paths -> In (tr, s) std_traits ->
    exists out,
      dync_mod depth attrs its = Ret out /\
      implements (lib_items lib ++ out) (has_of (lib_mod lib) s) (vtable_of "" (it_name it)) = true.
Proof.
  intros attrs lib its depth it p tr s Hh Hd Hs Hit Hb Hp Hstd.
  destruct (c48_closure_fact attrs lib its depth it tr (lib_mod lib) s Hh Hd Hs Hit
              (named_std _ _ _ _ Hstd)) as (out & E & H).
  exists out. split; [exact E|]. apply H. right. right.
  eapply inherits_bound; [exact Hit|exact Hb|]. apply names_known. exact Hp.
Qed.

(** *** C65 *)

Lemma c65_mod_compiles_fact :
  forall attrs lib its depth,
    hierarchy its -> (List.length its + 8 < depth)%nat ->
    crate_named attrs lib ->
    exists out, dync_mod depth attrs its = Ret out /\ compiles lib out.
Proof.
  intros attrs lib its depth Hh Hd Hs. destruct (config_crate _ _ Hs) as [Hc Hid]; clear Hs; rename Hc into Hs.
  destruct (expand_mod lib _ Hs Hid depth attrs its Hh Hd eq_refl) as (m & E & Ht).
  eexists. split; [exact E|].
  apply (compiles_fact lib _ Hs its _ m Ht (h_distinct _ Hh)).
  - intros a x y. apply offered_closed.
  - intros a. apply offered_drop.
  - intros a. apply offered_eq.
  - intros it Hit. apply offered_irr. exact Hh.
Qed.

Lemma c65_trait_refuted_fact :
  ~ (forall it out, hierarchy [it] -> it_generics it = false -> it_where it = false ->
       dync_trait [] it = Ret out -> compiles "dync" out).
Proof.
  intros H.
  specialize (H (ItemTrait "A" false false [BTrait false false (plain_path ["Eq"])]) _
                eq_hierarchy
                eq_refl eq_refl ltac:(vm_compute; reflexivity)).
  destruct H as [_ H]. vm_compute in H. discriminate.
Qed.

Lemma c65_trait_partial_fact :
  forall attrs lib it,
    ~ In (it_name it) reserved -> it_generics it = false -> it_where it = false ->
    crate_named attrs lib ->
    (forall b, In b (it_bounds it) -> ~ names b (TCustom (it_name it))) ->
    ((exists b, In b (it_bounds it) /\ names b TEq) ->
     exists b, In b (it_bounds it) /\ names b TPartialEq) ->
    exists out, dync_trait attrs it = Ret out /\ compiles lib out.
Proof.
  intros attrs lib it Hr Hg Hw Hs Hself Heq. destruct (config_crate _ _ Hs) as [Hc Hid]; clear Hs; rename Hc into Hs.
  destruct (expand_trait lib attrs it Hs Hid Hr Hg Hw) as (m & E & Ht).
  eexists. split; [exact E|].
  apply (compiles_fact lib _ Hs [it] _ m Ht (single_distinct it)).
  - intros a x y _ H. exact H.
  - intros a. left; reflexivity.
  - intros a [E'|H]; [discriminate|]. right. exact (Heq H).
  - intros it' [<-|[]] [E'|(b & Hb & Hn)]; [discriminate|]. exact (Hself b Hb Hn).
Qed.

(** The check says what the rules of [typed] say. *)
Lemma list_eqb_iff {A B} (f : A -> B -> bool) (R : A -> B -> Prop) a b :
  (forall x y, f x y = true <-> R x y) -> list_eqb f a b = true <-> Forall2 R a b.
Proof.
  intros H. revert b. induction a as [|x a IH]; intros [|y b]; cbn [list_eqb]; split; intros K;
    try discriminate; try (inversion K; fail); auto.
  - apply andb_true_iff in K. destruct K as [K1 K2]. constructor; [apply H, K1|apply IH, K2].
  - inversion K; subst. apply andb_true_iff. split; [apply H|apply IH]; assumption.
Qed.

Lemma forallb_iff {A} (f : A -> bool) (R : A -> Prop) l :
  (forall x, f x = true <-> R x) -> forallb f l = true <-> Forall R l.
Proof.
  intros H. rewrite forallb_forall, Forall_forall. split; intros K x Hx; apply H, K, Hx.
Qed.

Lemma opt_qname_iff a b : opt_qname_eqb a (Some b) = true <-> a = Some b.
Proof.
  destruct a as [a|]; cbn [opt_qname_eqb]; [|split; discriminate].
  rewrite qname_eqb_eq. split; congruence.
Qed.

Lemma c65_check_fact :
  forall lib its i, item_ok lib its i = true <-> typed lib its i.
Proof.
  intros lib its [h u deps ms|h q u ms|h|q fs|tr vt q es|a b use_ es]; cbn [item_ok].
  - rewrite (forallb_iff _ (fun d => exists x, has_trait its d = Some x)), Forall_forall.
    + split; intros H; [constructor; exact H|inversion H; assumption].
    + intros d. destruct (has_trait its d) as [x|]; split; intros H; auto; try discriminate;
        [exists x; reflexivity|destruct H; discriminate].
  - destruct (has_trait its h) as [[[u' deps] sig]|] eqn:Eh;
      [|split; intros H; [discriminate|inversion H; congruence]].
    destruct (struct_fields its q) as [fs|] eqn:Eq;
      [|split; intros H; [discriminate|inversion H; congruence]].
    rewrite !andb_true_iff, Bool.eqb_true_iff.
    rewrite (list_eqb_iff _ (fun m s => s = (hm_name m, hm_ty m))).
    2:{ intros m [s t]. cbn [fst snd]. rewrite andb_true_iff, String.eqb_eq, qname_eqb_eq.
        split; [intros [-> ->]; reflexivity|intros E; inversion E; auto]. }
    rewrite (forallb_iff _ (fun m => nth_error fs (N.to_nat (hm_idx m)) = Some (hm_ty m)))
      by (intros m; apply opt_qname_iff).
    rewrite (forallb_iff _ (fun d => implements its d q = true)) by (intros d; reflexivity).
    split.
    + intros [[[-> H1] H2] H3]. econstructor; eassumption.
    + intros H. inversion H; subst. rewrite Eh in *. rewrite Eq in *.
      repeat match goal with E : Some _ = Some _ |- _ => inversion E; subst; clear E end. auto.
  - destruct (has_trait its h) as [[[u deps] sig]|] eqn:E;
      [|split; intros H; [discriminate|inversion H; congruence]].
    rewrite existsb_exists. split.
    + intros (d & Hd & Ed). apply qname_eqb_eq in Ed. subst d. econstructor; [exact E|exact Hd].
    + intros H. inversion H; subst. rewrite E in *.
      match goal with E : Some _ = Some _ |- _ => inversion E; subst; clear E end.
      eexists. split; [eassumption|apply qname_eqb_refl].
  - rewrite (forallb_iff _ (fun f => exists n, In n lib_fn_types /\ f = (lib_mod lib, n))).
    + split; intros H; [constructor; exact H|inversion H; assumption].
    + intros [p n]. cbn [fst snd]. rewrite andb_true_iff, String.eqb_eq, existsb_exists. split.
      * intros [-> (x & Hx & E)]. apply String.eqb_eq in E. subst x. eauto.
      * intros (x & Hx & E). inversion E; subst. split; [reflexivity|]. exists x.
        split; [exact Hx|apply String.eqb_refl].
  - rewrite andb_true_iff, qname_eqb_eq. destruct (struct_fields its q) as [fs|] eqn:Eq.
    + rewrite (list_eqb_iff _ (fun e f => exists mk, lib_fun lib (fst e) (snd e) 0 = Some (mk, f))).
      * split; [intros [-> H]; econstructor; eassumption|].
        intros H. inversion H; subst. split; [reflexivity|]. rewrite Eq in *.
        match goal with E : Some _ = Some _ |- _ => inversion E; subst; clear E end. assumption.
      * intros e f. destruct (lib_fun lib (fst e) (snd e) 0) as [[mk ty]|].
        -- rewrite qname_eqb_eq. split; [intros ->; eauto|intros (x & E); inversion E; reflexivity].
        -- split; [discriminate|intros (x & E); discriminate].
    + split; [intros [_ H]; discriminate|intros H; inversion H; congruence].
  - rewrite andb_true_iff, String.eqb_eq. destruct (struct_fields its b) as [fs|] eqn:Eq.
    + rewrite (list_eqb_iff _ (fun e f => exists h, accessor its a e = Some h /\ hm_ty h = f)).
      * split; [intros [-> H]; econstructor; eassumption|].
        intros H. inversion H; subst. split; [reflexivity|]. rewrite Eq in *.
        match goal with E : Some _ = Some _ |- _ => inversion E; subst; clear E end. assumption.
      * intros e f. destruct (accessor its a e) as [h|].
        -- rewrite qname_eqb_eq. split; [intros <-; eauto|intros (x & E & <-); inversion E; reflexivity].
        -- split; [discriminate|intros (x & E & _); discriminate].
    + split; [intros [_ H]; discriminate|intros H; inversion H; congruence].
Qed.

(** The library's own items satisfy the rules. *)
Ltac lib_eval :=
  unfold lib_items, lib_has_traits, lib_tables, lib_accessors, lib_table, lib_q, implements;
  cbn [has_trait struct_fields existsb flat_map app map fst snd]; rewrite ?qname_same;
  cbn [String.eqb Ascii.eqb Bool.eqb app andb orb]; reflexivity.
Lemma c65_library_fact :
  forall lib i, In i (lib_items lib) -> typed lib (lib_items lib) i.
Proof.
  intros lib i Hi.
  assert (E : lib_items lib = lib_items lib) by reflexivity.
  revert E. generalize (lib_items lib) at 1 as P. intros P EP. rewrite <- EP in *.
  rewrite EP in Hi.
  unfold lib_items, lib_has_traits, lib_tables, lib_accessors, lib_table in Hi.
  cbn [flat_map app map fst snd] in Hi.
  repeat match goal with
         | H : In _ (_ :: _) |- _ => destruct H as [<-|H]
         | H : In _ [] |- _ => destruct H
         end.
  all: subst P.
  all: first
   [ eapply typed_impl; [lib_eval|lib_eval|repeat constructor..]; unfold lib_q; lib_eval
   | constructor; repeat constructor; unfold lib_fn_types, lib_q; cbn; eexists; (split; [|reflexivity]); tauto
   | constructor; intros d Hd; cbn in Hd; repeat destruct Hd as [<-|Hd]; try contradiction; eexists; lib_eval
   | eapply typed_build; [lib_eval|];
     repeat constructor; unfold lib_fun; cbn [fst snd lib_q]; rewrite String.eqb_refl; eexists; vm_compute; reflexivity ].
Qed.

(** *** C66 *)

(** A module that declares its own trait [Clone]. *)
Definition clone_hierarchy : list item_trait :=
  [ItemTrait "Clone" false false [];
   ItemTrait "Tr" false false [BTrait false false (plain_path ["Clone"])]].

(** A trait whose supertraits are all declared in the module, without supertraits of their own,
    should offer no standard trait except [Drop]. *)
Lemma c66_std_names_refuted_fact :
  ~ (forall its depth out it,
       NoDup (map it_name its) -> (List.length its + 8 < depth)%nat -> dync_mod depth [] its = Ret out ->
       In it its ->
       (forall b, In b (it_bounds it) ->
          exists n, b = BTrait false false (plain_path [n]) /\ In (ItemTrait n false false []) its) ->
       forall tr s, In (tr, s) std_traits -> tr <> TDrop ->
         implements (lib_items "dync" ++ out) (has_of (lib_mod "dync") s)
                    (vtable_of "" (it_name it)) = false).
Proof.
  intros H. specialize (H clone_hierarchy 20%nat).
  destruct (dync_mod 20 [] clone_hierarchy) as [out|p|u|] eqn:E; vm_compute in E; try discriminate.
  specialize (H out (ItemTrait "Tr" false false [BTrait false false (plain_path ["Clone"])])).
  inversion E as [E']. subst out.
  assert (K := fun a b d e => H a b eq_refl d e TClone "Clone" ltac:(cbn; tauto) ltac:(discriminate)).
  vm_compute in K. assert (true = false); [|discriminate]. apply K.
  - repeat constructor; cbn; intuition discriminate.
  - lia.
  - auto.
  - intros b [<-|[]]. exists "Clone". auto.
Qed.

(** A trait named like a standard one: its own bounds are never looked at. *)
Lemma fill_keeps it m k : tm_get k m <> None -> tm_get k (fill_trait_map it m) <> None.
Proof.
  unfold fill_trait_map. intros H. destruct (tm_get (trait_of_name (it_name it)) m); [exact H|].
  cbn [tm_get]. destruct (trait_eqb _ _); [discriminate|exact H].
Qed.

Lemma fill_all_keeps its m k :
  tm_get k m <> None -> tm_get k (fold_left (fun m it => fill_trait_map it m) its m) <> None.
Proof.
  revert m. induction its as [|it l IH]; intros m H; [exact H|]. cbn [fold_left].
  apply IH, fill_keeps, H.
Qed.

Lemma flatten_all_app depth a b m :
  flatten_all depth (a ++ b) m = obind (flatten_all depth a m) (flatten_all depth b).
Proof.
  revert m. induction a as [|it a IH]; intros m; [reflexivity|]. cbn [app flatten_all].
  destruct (flatten_inheritance depth it m); cbn [obind]; auto.
Qed.

Lemma oconcat_app {A B} (f : A -> outcome (list B)) a b :
  oconcat f (a ++ b) = let! x := oconcat f a in let! y := oconcat f b in Ret (x ++ y).
Proof.
  induction a as [|x a IH]; cbn [app oconcat obind].
  - destruct (oconcat f b); reflexivity.
  - destruct (f x); cbn [obind]; [|reflexivity..]. rewrite IH.
    destruct (oconcat f a); cbn [obind]; [|reflexivity..].
    destruct (oconcat f b); cbn [obind]; [|reflexivity..]. rewrite app_assoc. reflexivity.
Qed.

Lemma c66_bounds_ignored_refuted_fact :
  forall tr n, In (tr, n) std_traits ->
  forall depth attrs before after g w bs,
    dync_mod depth attrs (before ++ ItemTrait n g w bs :: after)
      = dync_mod depth attrs (before ++ ItemTrait n g w [] :: after) /\
    dync_trait attrs (ItemTrait n g w bs) = dync_trait attrs (ItemTrait n g w []).
Proof.
  intros tr n Hin depth attrs before after g w bs.
  assert (Hk : tm_get (trait_of_name n) builtins <> None).
  { cbn in Hin. repeat destruct Hin as [Hin|Hin]; try contradiction; inversion Hin; discriminate. }
  assert (Hf : forall m, tm_get (trait_of_name n) m <> None -> forall bs', fill_trait_map (ItemTrait n g w bs') m = m).
  { intros m Hm bs'. unfold fill_trait_map. cbn [it_name].
    destruct (tm_get (trait_of_name n) m); [reflexivity|congruence]. }
  split.
  - unfold dync_mod, fill_and_flatten. rewrite !fold_left_app. cbn [fold_left].
    rewrite !Hf by (apply fill_all_keeps, Hk).
    rewrite !flatten_all_app. cbn [flatten_all].
    change (flatten_inheritance depth (ItemTrait n g w bs))
      with (flatten_inheritance depth (ItemTrait n g w [])).
    match goal with |- obind ?x _ = _ => destruct x as [m| | |] end; cbn [obind]; [|reflexivity..].
    rewrite !oconcat_app. reflexivity.
  - unfold dync_trait. rewrite !Hf by exact Hk. reflexivity.
Qed.

Lemma same_name its (a b : item_trait) :
  NoDup (map it_name its) -> In a its -> In b its -> it_name a = it_name b -> a = b.
Proof.
  induction its as [|x l IH]; cbn; intros Hnd Ha Hb E; [destruct Ha|]. inversion Hnd; subst.
  destruct Ha as [->|Ha], Hb as [->|Hb]; auto.
  - exfalso. apply H1. rewrite E. apply in_map. exact Hb.
  - exfalso. apply H1. rewrite <- E. apply in_map. exact Ha.
Qed.

Lemma c66_module_traits_partial_fact :
  forall its depth it,
    hierarchy its -> (List.length its + 8 < depth)%nat -> In it its ->
    (forall b, In b (it_bounds it) ->
       exists n, b = BTrait false false (plain_path [n]) /\ In (ItemTrait n false false []) its) ->
    exists out, dync_mod depth [] its = Ret out /\
    forall tr s, In (tr, s) std_traits -> tr <> TDrop ->
      implements (lib_items "dync" ++ out) (has_of (lib_mod "dync") s) (vtable_of "" (it_name it)) = false.
Proof.
  intros its depth it Hh Hd Hit Hb.
  assert (Hs : crate_named [] "dync")
    by (split; [right; split; [reflexivity|intros s []]|apply ident_ok_iff; reflexivity]).
  destruct (c65_mod_compiles_fact [] "dync" its depth Hh Hd Hs) as (out & E & _).
  exists out. split; [exact E|]. intros tr s Hstd Hne.
  destruct (c48_closure_fact [] "dync" its depth it tr (lib_mod "dync") s Hh Hd Hs Hit
              (named_std _ _ _ _ Hstd)) as (out' & E' & H).
  rewrite E in E'. inversion E'; subst out'. clear E'.
  assert (Hcu : forall x, tr <> TCustom x).
  { intros x ->. cbn in Hstd. repeat destruct Hstd as [Hstd|Hstd]; try discriminate. contradiction. }
  destruct (implements _ _ _) eqn:Ei; [|reflexivity]. exfalso.
  destruct (proj1 H eq_refl) as [Ec|[Ed|Hi]]; [exact (Hcu _ Ec)|contradiction|].
  assert (Hl : forall n, In (ItemTrait n false false []) its -> forall y, ~ inherits its (TCustom n) y).
  { intros n Hn y Hy. remember (TCustom n) as a eqn:Ea. induction Hy as [it' b t Hi' Hb' Hnm| |a b c H1 IH1 H2 IH2].
    - injection Ea as Ea.
      assert (it' = ItemTrait n false false []) by (apply (same_name its); auto; apply Hh).
      subst it'. destruct Hb'.
    - discriminate.
    - apply IH1. exact Ea. }
  assert (Hfirst : forall a y, inherits its a y -> a = TCustom (it_name it) ->
            exists n, In (ItemTrait n false false []) its /\ y = TCustom n).
  { intros a y Hy. induction Hy as [it' b t Hi' Hb' Hnm| |a b c H1 IH1 H2 IH2]; intros Ea.
    - injection Ea as Ea.
      assert (it' = it) by (apply (same_name its); auto; apply Hh).
      subst it'. destruct (Hb b Hb') as (n & -> & Hn). exists n. split; [exact Hn|].
      assert (Hnr : ~ In n reserved) by (exact (h_names _ Hh _ Hn)).
      inversion Hnm as [p t' Hk|p Hk Ha]; subst.
      + exfalso. apply Hnr. cbn in Hk. repeat destruct Hk as [Hk|Hk]; try contradiction;
          inversion Hk; subst; cbn; tauto.
      + reflexivity.
    - discriminate.
    - destruct (IH1 Ea) as (n & Hn & ->). exfalso. exact (Hl n Hn _ H2). }
  destruct (Hfirst _ _ Hi eq_refl) as (n & _ & E2). exact (Hcu _ E2).
Qed.

Lemma c66_library_untouched_partial_fact :
  forall attrs lib its depth s,
    hierarchy its -> (List.length its + 8 < depth)%nat ->
    crate_named attrs lib ->
    exists out, dync_mod depth attrs its = Ret out /\
      struct_fields out (lib_mod lib, s) = None /\ accessors out (lib_mod lib, s) = [] /\
      build_exprs out (lib_mod lib, s) = None /\ has_trait out (lib_mod lib, s) = None /\
      (forall it, In it its -> exists fs, struct_fields out (vtable_of "" (it_name it)) = Some fs).
Proof.
  intros attrs lib its depth s Hh Hd Hs. destruct (config_crate _ _ Hs) as [Hc Hid]; clear Hs; rename Hc into Hs.
  destruct (expand_mod lib _ Hs Hid depth attrs its Hh Hd eq_refl) as (m & E & Ht).
  eexists. split; [exact E|].
  destruct (foreign_items (lib_mod lib, s) (flat_map (gen_items lib (config_parse attrs) m) its))
    as (H1 & H2 & H3 & _).
  { intros i Hi. apply in_flat_map in Hi. destruct Hi as (it & _ & Hi).
    destruct (gen_about lib _ m it i Hi) as [->| ->]; [discriminate|].
    unfold tq. intros E'. injection E' as E1 _. exact (lib_mod_neq _ (eq_sym E1)). }
  split; [exact H1|]. split; [exact H2|]. split; [exact H3|]. split.
  - apply has_trait_foreign. intros i Hi. apply in_flat_map in Hi. destruct Hi as (it & _ & Hi).
    apply gen_traits in Hi. destruct i; auto. subst. unfold hq. intros E'. injection E' as E1 _.
    exact (lib_mod_neq _ (eq_sym E1)).
  - intros it Hit. pose proof (own_fields lib _ Hs its _ m Ht (h_distinct _ Hh) it Hit) as Ho.
    unfold program in Ho. rewrite struct_fields_app in Ho.
    destruct (foreign_items (vtable_of "" (it_name it)) (lib_items lib)) as (F & _).
    { intros i Hi. destruct (lib_about lib _ Hs i Hi) as [->|(z & ->)]; [discriminate|].
      unfold vtable_of. intros E'. injection E' as E1 _. exact (lib_mod_neq _ E1). }
    change (tq (it_name it)) with (vtable_of "" (it_name it)) in Ho. rewrite F in Ho.
    eexists. exact Ho.
Qed.

(** A user trait called [Drop] gets no way to drop the values of its tables, whatever its bounds. *)
Lemma c66_own_drop_refuted_fact :
  forall attrs lib bs, crate_named attrs lib ->
    exists out, dync_trait attrs (ItemTrait "Drop" false false bs) = Ret out /\ ~ compiles lib out.
Proof.
  intros attrs lib bs Hs. destruct (config_crate _ _ Hs) as [Hc Hid].
  eexists. split.
  - rewrite (proj2 (c66_bounds_ignored_refuted_fact TDrop "Drop" ltac:(cbn; tauto) 0 attrs [] [] false false bs)).
    unfold dync_trait, validate_item_trait, construct_items. cbn [negb it_generics it_where assert_ obind it_name].
    rewrite Hc, Hid. cbn. reflexivity.
  - intros [_ H]. rewrite forallb_forall in H.
    assert (K := H (GDowncast ("", "HasDrop")) ltac:(cbn; tauto)).
    apply c65_check_fact in K. inversion K as [| |h u deps sig Eh Hin| | |]; subst.
    match type of Eh with has_trait (?l ++ ?o) _ = _ => set (out := o) in * end.
    assert (E : forall l, (forall i, In i l -> match i with GHasTrait h _ _ _ => h <> ("", "HasDrop") | _ => True end) ->
       has_trait (l ++ out) ("", "HasDrop") = Some (false, [], [])).
    { induction l as [|i l IH]; intros Hl; [reflexivity|].
      destruct i as [h u' d' s'|h q u' ms|h|q fs|tr vt q es|a b us es]; cbn [app has_trait];
        try (apply IH; intros i Hi; apply Hl; right; exact Hi).
      destruct (qname_eqb ("", "HasDrop") h) eqn:Eq.
      - apply qname_eqb_eq in Eq. exfalso. exact (Hl _ (or_introl eq_refl) (eq_sym Eq)).
      - apply IH. intros i Hi. apply Hl. right. exact Hi. }
    rewrite E in Eh.
    + inversion Eh; subst. destruct Hin.
    + intros i Hi. destruct i; auto. intros E'. subst.
      cbn in Hi.
      repeat (destruct Hi as [Hi|Hi]; [first [discriminate | injection Hi; intros; eapply lib_mod_neq; eassumption]|]).
      exact Hi.
Qed.
