(** * DeriveItems: lookups in the generated program. *)

From Verif Require Import Base Value Derive DeriveSem DeriveSpec DeriveProofs DeriveMap.
From Coq Require Import Ascii Sorting.Sorted Relations.
Local Open Scope string_scope.
Local Open Scope list_scope.

(** ** Names *)

Lemma lib_mod_ne lib : ("" =? lib_mod lib) = false.
Proof. unfold lib_mod. destruct lib; reflexivity. Qed.

Lemma lib_mod_ne' lib : (lib_mod lib =? "") = false.
Proof. unfold lib_mod. destruct lib; reflexivity. Qed.

Lemma lib_mod_neq lib : lib_mod lib <> "".
Proof. unfold lib_mod. destruct lib; discriminate. Qed.

Lemma qname_eqb_eq a b : qname_eqb a b = true <-> a = b.
Proof.
  unfold qname_eqb. rewrite andb_true_iff, !String.eqb_eq. destruct a, b; cbn. split.
  - intros [-> ->]; reflexivity.
  - intros E; inversion E; auto.
Qed.

Lemma qname_eqb_refl a : qname_eqb a a = true.
Proof. apply qname_eqb_eq; reflexivity. Qed.

Lemma qname_eqb_neq a b : a <> b -> qname_eqb a b = false.
Proof.
  intros H. destruct (qname_eqb a b) eqn:E; [|reflexivity]. apply qname_eqb_eq in E. contradiction.
Qed.

Lemma append_inj_l (a b c : string) : String.append a b = String.append a c -> b = c.
Proof. induction a as [|x a IH]; cbn; [auto|]. intros E; inversion E; auto. Qed.

Lemma append_length (a b : string) :
  String.length (String.append a b) = (String.length a + String.length b)%nat.
Proof. induction a as [|x a IH]; cbn; [reflexivity|]. rewrite IH; reflexivity. Qed.

Lemma append_inj_r (a b c : string) : String.append a c = String.append b c -> a = b.
Proof.
  revert b. induction a as [|x a IH]; intros [|y b]; cbn; intros E; auto.
  - exfalso. apply (f_equal String.length) in E. cbn in E. rewrite append_length in E. lia.
  - exfalso. apply (f_equal String.length) in E. cbn in E. rewrite append_length in E. lia.
  - inversion E. f_equal. apply IH. assumption.
Qed.

(** The name of a trait in the names derived from it. *)
Definition kname (t : trait) : string :=
  match t with
  | TDrop => "Drop" | TClone => "Clone" | TPartialEq => "PartialEq" | TEq => "Eq"
  | THash => "Hash" | TDebug => "Debug" | TSend => "Send" | TSync => "Sync"
  | TCustom s => s
  end.

Definition kprefix (lib : string) (t : trait) : string := if std t then lib_mod lib else "".

Lemma kname_inj lib a b : kprefix lib a = kprefix lib b -> kname a = kname b -> a = b.
Proof.
  unfold kprefix. destruct a, b; cbn; intros E1 E2; try reflexivity; try discriminate;
    try (subst; reflexivity); exfalso;
    first [exact (lib_mod_neq _ E1) | exact (lib_mod_neq _ (eq_sym E1))].
Qed.

Lemma trait_prefix_eq lib t : trait_prefix t lib = kprefix lib t.
Proof. destruct t; reflexivity. Qed.

(** The methods of a trait that a table has functions for. *)
Definition bmeth (t : trait) : list string := methods_of builtins t.

(** The function of each method. *)
Definition mfun (f : string) (t : N) : tfun :=
  if f =? "drop" then FDrop (DropOf t)
  else if f =? "clone" then FClone (CloneOf t)
  else if f =? "clone_from" then FCloneFrom (CloneFromOf t)
  else if f =? "clone_into_raw" then FCloneRaw (CloneRawOf t)
  else if f =? "eq" then FEq (EqOf t)
  else if f =? "hash" then FHash (HashOf t)
  else FFmt (FmtOf t).

Lemma lib_fun_method lib tr f t :
  In f (bmeth tr) ->
  lib_fun lib (kprefix lib tr, String.append (kname tr) "Bytes") (method_bytes f) t
  = Some (mfun f t, (lib_mod lib, method_ty f)).
Proof.
  intros H. destruct tr; cbn in H; repeat destruct H as [H|H]; try contradiction; subst f;
    unfold lib_fun, kprefix; cbn [std fst snd]; rewrite String.eqb_refl; reflexivity.
Qed.

Lemma method_has_inj f g : method_has f = method_has g -> f = g.
Proof. apply append_inj_r. Qed.

(** ** Lookups and lists *)

Lemma struct_fields_app a b q :
  struct_fields (a ++ b) q
  = match struct_fields a q with Some x => Some x | None => struct_fields b q end.
Proof.
  induction a as [|i a IH]; [reflexivity|]. destruct i; cbn; try exact IH.
  destruct (qname_eqb q table); [reflexivity|exact IH].
Qed.

Lemma accessors_app a b q : accessors (a ++ b) q = accessors a q ++ accessors b q.
Proof.
  induction a as [|i a IH]; [reflexivity|]. destruct i; cbn; try exact IH.
  destruct (qname_eqb q table); [rewrite IH, app_assoc; reflexivity|exact IH].
Qed.

Lemma build_exprs_app a b q :
  build_exprs (a ++ b) q
  = match build_exprs a q with Some x => Some x | None => build_exprs b q end.
Proof.
  induction a as [|i a IH]; [reflexivity|]. destruct i; cbn; try exact IH.
  destruct (qname_eqb q table); [reflexivity|exact IH].
Qed.

Lemma from_exprs_app a b q r :
  from_exprs (a ++ b) q r
  = match from_exprs a q r with Some x => Some x | None => from_exprs b q r end.
Proof.
  induction a as [|i a IH]; [reflexivity|]. destruct i; cbn; try exact IH.
  destruct (qname_eqb q from && qname_eqb r to); [reflexivity|exact IH].
Qed.

Lemma has_trait_app a b h :
  has_trait (a ++ b) h = match has_trait a h with Some x => Some x | None => has_trait b h end.
Proof.
  induction a as [|i a IH]; [reflexivity|]. destruct i; cbn; try exact IH.
  destruct (qname_eqb h name); [reflexivity|exact IH].
Qed.

Lemma implements_app a b h q : implements (a ++ b) h q = implements a h q || implements b h q.
Proof. unfold implements. apply existsb_app. Qed.

Lemma accessor_app a b q n :
  accessor (a ++ b) q n = match accessor a q n with Some x => Some x | None => accessor b q n end.
Proof.
  unfold accessor. rewrite accessors_app. induction (accessors a q) as [|h l IH]; [reflexivity|].
  cbn. destruct (hm_name h =? n); [reflexivity|exact IH].
Qed.

(** The table an item is about. *)
Definition about (i : gen_item) : option qname :=
  match i with
  | GHasImpl _ q _ _ | GStruct q _ | GBuild _ _ q _ | GFrom q _ _ _ => Some q
  | _ => None
  end.

Lemma foreign_items q l :
  (forall i, In i l -> about i <> Some q) ->
  struct_fields l q = None /\ accessors l q = [] /\ build_exprs l q = None
  /\ (forall r, from_exprs l q r = None) /\ (forall h, implements l h q = false).
Proof.
  induction l as [|i l IH]; intros H; [repeat split; reflexivity|].
  destruct IH as (H1 & H2 & H3 & H4 & H5); [intros j Hj; apply H; right; exact Hj|].
  assert (Hi := H i (or_introl eq_refl)).
  assert (Hq : forall q', about i = Some q' -> qname_eqb q q' = false).
  { intros q' E. apply qname_eqb_neq. congruence. }
  unfold implements in *. destruct i; cbn in *; try rewrite (Hq _ eq_refl); cbn;
    repeat split; auto. intros h. rewrite andb_false_r. apply H5.
Qed.

(** ** One generated table *)

Section Gen.
Context (lib : string) (c : config) (Hc : cf_crate c = lib).
Context (its : list item_trait) (off : string -> trait -> Prop) (m : trait_map).
Context (Ht : tables its off m).
Context (Hnd : NoDup (map it_name its)).
Context (Hres : forall it, In it its -> ~ In (it_name it) reserved).

Definition known (t : trait) : Prop :=
  match t with TCustom s => In s (map it_name its) | _ => True end.

Lemma known_get t : known t ->
  exists ss, tm_get t m = Some (TraitData (match t with
                                           | THash => ["std"; "hash"; "Hash"]
                                           | TDebug => ["std"; "fmt"; "Debug"]
                                           | _ => [kname t] end) (bmeth t) ss).
Proof.
  intros Hk. destruct t; try (rewrite (tb_std _ _ _ Ht) by reflexivity; eexists; reflexivity).
  apply in_map_iff in Hk. destruct Hk as (it & <- & Hit).
  destruct (tb_user _ _ _ Ht it Hit) as (ss & E & _). exists ss. exact E.
Qed.

Lemma unknown_get t : ~ known t -> tm_get t m = None.
Proof.
  destruct t; cbn; try tauto. apply (tb_other _ _ _ Ht).
Qed.

Lemma known_in_dec t : known t \/ ~ known t.
Proof.
  destruct t; cbn; try (left; exact I).
  destruct (in_dec string_dec name (map it_name its)); auto.
Qed.

Lemma get_known t d : tm_get t m = Some d ->
  known t /\ td_methods d = bmeth t /\ td_name d = kname t.
Proof.
  intros E. destruct (known_in_dec t) as [Hk|Hk].
  - destruct (known_get t Hk) as (ss & E'). rewrite E in E'. inversion E'; subst d.
    split; [exact Hk|]. split; [reflexivity|]. destruct t; reflexivity.
  - rewrite (unknown_get t Hk) in E. discriminate.
Qed.

Lemma methods_of_m t : methods_of m t = bmeth t.
Proof.
  unfold methods_of at 1. destruct (tm_get t m) as [d|] eqn:E.
  - apply (proj1 (proj2 (get_known _ _ E))).
  - destruct t; try (rewrite (tb_std _ _ _ Ht) in E by reflexivity; discriminate). reflexivity.
Qed.

Lemma custom_methods s : bmeth (TCustom s) = [].
Proof. reflexivity. Qed.

(** The supertraits recorded for a declared trait. *)
Definition sup (s : string) : list trait :=
  match tm_get (TCustom s) m with Some d => td_supers d | None => [] end.

Lemma sup_facts it : In it its ->
  tm_get (TCustom (it_name it)) m = Some (TraitData [it_name it] [] (sup (it_name it)))
  /\ StronglySorted tlt (sup (it_name it))
  /\ forall x, In x (sup (it_name it)) <-> off (it_name it) x.
Proof.
  intros Hit. destruct (tb_user _ _ _ Ht it Hit) as (ss & E & H). unfold sup. rewrite E. cbn.
  split; [reflexivity|exact H].
Qed.

Definition tq (s : string) : qname := ("", String.append s "VTable").
Definition hq (s : string) : qname := ("", String.append "Has" s).

Lemma tq_inj s s' : tq s = tq s' -> s = s'.
Proof. unfold tq. intros E. inversion E as [E']. apply append_inj_r in E'. exact E'. Qed.

Lemma hq_inj s s' : hq s = hq s' -> s = s'.
Proof. unfold hq. intros E. inversion E. reflexivity. Qed.

(** The methods of a table, in order. *)
Definition fl (ss : list trait) : list string := flat_map bmeth ss.

Definition gen_items (it : item_trait) : list gen_item :=
  let ss := sup (it_name it) in
  has_impls c m (tq (it_name it)) 0 ss
  ++ [GHasTrait (hq (it_name it)) false (has_deps c m ss) [];
      GHasImpl (hq (it_name it)) (tq (it_name it)) false [];
      GDowncast (hq (it_name it));
      GStruct (tq (it_name it)) (map (fun f => (lib_mod lib, method_ty f)) (fl ss));
      GBuild (it_name it) (String.append lib "::", "VTable") (tq (it_name it))
             (constructor_exprs c m ss)]
  ++ conversions c m (tq (it_name it)) ss.

Lemma fields_eq ss :
  flat_map (fun st => map (fun f => (trait_prefix st (cf_crate c), method_ty f)) (methods_of m st)) ss
  = map (fun f => (lib_mod lib, method_ty f)) (fl ss).
Proof.
  unfold fl. induction ss as [|st ss IH]; [reflexivity|]. cbn [flat_map].
  rewrite map_app, IH, methods_of_m, trait_prefix_eq, Hc. f_equal.
  destruct st; reflexivity.
Qed.

Lemma construct_eq it : ident_ok lib = true -> In it its -> construct_items c m it = Ret (gen_items it).
Proof.
  intros Hid Hit. unfold construct_items. rewrite (reserved_user _ (Hres it Hit)).
  destruct (sup_facts it Hit) as (E & _). rewrite E. unfold gen_items, vtable_struct_def.
  cbn [td_supers]. rewrite fields_eq, Hc, Hid. reflexivity.
Qed.

Lemma expand_eq its' : ident_ok lib = true -> incl its' its ->
  oconcat (construct_items c m) its' = Ret (flat_map gen_items its').
Proof.
  intros Hid. induction its' as [|it its' IH]; intros Hi; [reflexivity|]. cbn [oconcat flat_map].
  rewrite construct_eq by (exact Hid || (apply Hi; left; reflexivity)). cbn [obind].
  rewrite IH by (intros x Hx; apply Hi; right; exact Hx). reflexivity.
Qed.

Lemma number_methods_app p i a b :
  number_methods p i (a ++ b) = number_methods p i a ++ number_methods p (i + lenN a) b.
Proof.
  revert i. induction a as [|f a IH]; intros i; cbn.
  - unfold lenN; cbn. rewrite N.add_0_r. reflexivity.
  - f_equal. rewrite IH. do 2 f_equal. unfold lenN. cbn [List.length]. lia.
Qed.

Lemma has_impls_facts q idx ss :
  struct_fields (has_impls c m q idx ss) q = None
  /\ accessors (has_impls c m q idx ss) q = number_methods (lib_mod lib) idx (fl ss)
  /\ build_exprs (has_impls c m q idx ss) q = None
  /\ (forall r, from_exprs (has_impls c m q idx ss) q r = None).
Proof.
  revert idx. induction ss as [|st ss IH]; intros idx; [repeat split; reflexivity|].
  cbn [has_impls]. destruct (tm_get st m) as [d|] eqn:E.
  - destruct (get_known _ _ E) as (Hk & Hm & Hn).
    destruct (IH (idx + lenN (td_methods d))%N) as (H1 & H2 & H3 & H4).
    cbn [struct_fields accessors build_exprs from_exprs]. rewrite qname_eqb_refl.
    repeat split; auto. rewrite H2. unfold fl. cbn [flat_map].
    rewrite number_methods_app, Hm. f_equal. rewrite trait_prefix_eq, Hc.
    destruct st; reflexivity.
  - destruct (IH idx) as (H1 & H2 & H3 & H4). repeat split; auto. rewrite H2. unfold fl.
    cbn [flat_map].
    assert (bmeth st = []) as ->; [|reflexivity].
    rewrite <- methods_of_m. unfold methods_of. rewrite E. reflexivity.
Qed.

Lemma conversions_facts q ss :
  struct_fields (conversions c m q ss) q = None
  /\ accessors (conversions c m q ss) q = []
  /\ build_exprs (conversions c m q ss) q = None.
Proof.
  unfold conversions. induction ss as [|st ss IH]; [repeat split; reflexivity|].
  cbn [flat_map]. destruct IH as (H1 & H2 & H3). destruct (tm_get st m); cbn; auto.
Qed.

Lemma constructor_eq ss t :
  omap_list (fun e => option_map fst (lib_fun lib (fst e) (snd e) t)) (constructor_exprs c m ss)
  = Some (map (fun f => mfun f t) (fl ss)).
Proof.
  assert (Happ : forall A B (f : A -> option B) a b x y, omap_list f a = Some x ->
                   omap_list f b = Some y -> omap_list f (a ++ b) = Some (x ++ y)).
  { intros A B f a b. induction a as [|u a IH]; intros x y; cbn.
    - intros Ex; inversion Ex; auto.
    - destruct (f u); [|discriminate]. destruct (omap_list f a); [|discriminate].
      intros Ex Ey; inversion Ex; subst. rewrite (IH _ _ eq_refl Ey). reflexivity. }
  unfold constructor_exprs, fl. induction ss as [|st ss IH]; [reflexivity|].
  cbn [flat_map]. rewrite map_app. apply Happ; [|exact IH].
  destruct (tm_get st m) as [d|] eqn:E.
  - destruct (get_known _ _ E) as (Hk & Hm & Hn). unfold td_bytes. rewrite Hm, Hn, trait_prefix_eq, Hc.
    assert (Hin : forall f, In f (bmeth st) -> In f (bmeth st)) by auto.
    revert Hin. generalize (bmeth st) at 1 3 4 as fs. induction fs as [|f fs IHf]; intros Hin;
      [reflexivity|].
    cbn. rewrite lib_fun_method by (apply Hin; left; reflexivity). cbn.
    rewrite IHf by (intros g Hg; apply Hin; right; exact Hg). reflexivity.
  - rewrite <- methods_of_m. unfold methods_of. rewrite E. reflexivity.
Qed.

Lemma gen_own it :
  let q := tq (it_name it) in
  let ss := sup (it_name it) in
  struct_fields (gen_items it) q = Some (map (fun f => (lib_mod lib, method_ty f)) (fl ss))
  /\ accessors (gen_items it) q = number_methods (lib_mod lib) 0 (fl ss)
  /\ build_exprs (gen_items it) q = Some (constructor_exprs c m ss)
  /\ forall r, from_exprs (gen_items it) q r = from_exprs (conversions c m q ss) q r.
Proof.
  cbn zeta. unfold gen_items. set (q := tq (it_name it)). set (ss := sup (it_name it)).
  destruct (has_impls_facts q 0 ss) as (H1 & H2 & H3 & H4).
  destruct (conversions_facts q ss) as (C1 & C2 & C3).
  rewrite !struct_fields_app, !accessors_app, !build_exprs_app, H1, H2, H3, C2.
  cbn [struct_fields accessors build_exprs]. rewrite !qname_eqb_refl, !app_nil_r.
  repeat split. intros r. rewrite !from_exprs_app, H4. reflexivity.
Qed.

Lemma gen_about it i : In i (gen_items it) -> about i = None \/ about i = Some (tq (it_name it)).
Proof.
  unfold gen_items. rewrite !in_app_iff. intros [H|[H|H]].
  - right. revert H. generalize 0%N as idx. induction (sup (it_name it)) as [|st ss IH];
      intros idx H; cbn in H; [destruct H|].
    destruct (tm_get st m); [|eapply IH; exact H]. destruct H as [<-|H]; [reflexivity|].
    eapply IH; exact H.
  - cbn in H. repeat destruct H as [<-|H]; cbn; auto. destruct H.
  - right. unfold conversions in H. apply in_flat_map in H. destruct H as (st & _ & H).
    destruct (tm_get st m); [|destruct H]. destruct H as [<-|[]]. reflexivity.
Qed.

Lemma lib_about i : In i (lib_items lib) ->
  about i = None \/ exists s, about i = Some (lib_mod lib, s).
Proof.
  intros H.
  assert (E : forallb (fun i => match about i with
                                | Some q => String.eqb (fst q) (lib_mod lib) | None => true end)
                      (lib_items lib) = true).
  { cbn. rewrite String.eqb_refl. reflexivity. }
  rewrite forallb_forall in E. specialize (E _ H). destruct (about i) as [[p s]|]; [|left; reflexivity].
  right. exists s. cbn in E. apply String.eqb_eq in E. subst; reflexivity.
Qed.

(** The whole program. *)
Definition program : list gen_item := lib_items lib ++ flat_map gen_items its.

Lemma program_own it : In it its ->
  let q := tq (it_name it) in
  struct_fields program q = struct_fields (gen_items it) q
  /\ accessors program q = accessors (gen_items it) q
  /\ build_exprs program q = build_exprs (gen_items it) q
  /\ (forall r, from_exprs program q r = from_exprs (gen_items it) q r)
  /\ (forall h, implements program h q = implements (gen_items it) h q).
Proof.
  intros Hit. cbn zeta. set (q := tq (it_name it)). unfold program.
  apply in_split in Hit. destruct Hit as (l1 & l2 & E).
  assert (Hne : forall it', In it' (l1 ++ l2) -> tq (it_name it') <> q).
  { intros it' Hin E'. apply tq_inj in E'. rewrite E, map_app in Hnd. cbn in Hnd.
    apply NoDup_remove_2 in Hnd. apply Hnd. rewrite <- map_app, <- E'. apply in_map. exact Hin. }
  rewrite E, flat_map_app. cbn [flat_map].
  assert (Hfor : forall l, incl l (l1 ++ l2) ->
                   forall i, In i (flat_map gen_items l) -> about i <> Some q).
  { intros l Hl i Hi. apply in_flat_map in Hi. destruct Hi as (it' & Hin & Hi).
    apply Hl in Hin. destruct (gen_about it' i Hi) as [->| ->]; [discriminate|].
    intros E'. injection E' as E2. exact (Hne it' Hin (f_equal (pair "") E2)). }
  destruct (foreign_items q (lib_items lib)) as (A1 & A2 & A3 & A4 & A5).
  { intros i Hi. destruct (lib_about i Hi) as [->|(s & ->)]; [discriminate|].
    unfold q, tq. intros E'. injection E' as E2 _. exact (lib_mod_neq _ E2). }
  destruct (foreign_items q (flat_map gen_items l1)) as (B1 & B2 & B3 & B4 & B5).
  { apply Hfor. intros x Hx. apply in_app_iff; left; exact Hx. }
  destruct (foreign_items q (flat_map gen_items l2)) as (C1 & C2 & C3 & C4 & C5).
  { apply Hfor. intros x Hx. apply in_app_iff; right; exact Hx. }
  rewrite !struct_fields_app, !accessors_app, !build_exprs_app, A1, A2, A3, B1, B2, B3, C1, C2, C3.
  rewrite app_nil_r. cbn [app].
  repeat split.
  - destruct (struct_fields (gen_items it) q); reflexivity.
  - destruct (build_exprs (gen_items it) q); reflexivity.
  - intros r. rewrite !from_exprs_app, A4, B4, C4. destruct (from_exprs (gen_items it) q r); reflexivity.
  - intros h. rewrite !implements_app, A5, B5, C5, orb_false_r. reflexivity.
Qed.

(** ** Building and accessing *)

Lemma build_own it t : In it its ->
  build lib program (tq (it_name it)) t = Some (map (fun f => mfun f t) (fl (sup (it_name it)))).
Proof.
  intros Hit. unfold build. destruct (program_own it Hit) as (_ & _ & -> & _).
  destruct (gen_own it) as (_ & _ & -> & _). apply constructor_eq.
Qed.

Lemma find_numbered p i fs n :
  match find (fun h => hm_name h =? n) (number_methods p i fs) with
  | Some h => exists f k, n = method_has f /\ nth_error fs k = Some f /\ hm_idx h = (i + N.of_nat k)%N
                          /\ hm_ty h = (p, method_ty f) /\ hm_name h = n
  | None => forall f, In f fs -> method_has f <> n
  end.
Proof.
  revert i. induction fs as [|f fs IH]; intros i; cbn; [intros f []|].
  destruct (method_has f =? n) eqn:E.
  - apply String.eqb_eq in E. exists f, 0%nat. cbn. repeat split; auto. lia.
  - specialize (IH (i + 1)%N). destruct (find _ (number_methods p (i + 1) fs)) as [h|].
    + destruct IH as (g & k & H1 & H2 & H3 & H4). exists g, (S k). cbn. repeat split; auto; try lia; apply H4.
    + intros g [<-|Hg]; [|apply IH; exact Hg]. intros E'. apply String.eqb_neq in E. contradiction.
Qed.

Lemma accessor_own it n : In it its ->
  match accessor program (tq (it_name it)) n with
  | Some h => exists f k, n = method_has f /\ nth_error (fl (sup (it_name it))) k = Some f
                          /\ hm_idx h = N.of_nat k
                          /\ hm_ty h = (lib_mod lib, method_ty f) /\ hm_name h = n
  | None => forall f, In f (fl (sup (it_name it))) -> method_has f <> n
  end.
Proof.
  intros Hit. unfold accessor. destruct (program_own it Hit) as (_ & -> & _).
  destruct (gen_own it) as (_ & -> & _).
  exact (find_numbered (lib_mod lib) 0 (fl (sup (it_name it))) n).
Qed.

Lemma call_own it t n : In it its ->
  call_accessor program (tq (it_name it)) (map (fun f => mfun f t) (fl (sup (it_name it)))) n
  = (if existsb (fun f => method_has f =? n) (fl (sup (it_name it)))
     then option_map (fun f => mfun f t) (find (fun f => method_has f =? n) (fl (sup (it_name it))))
     else None).
Proof.
  intros Hit. unfold call_accessor. pose proof (accessor_own it n Hit) as Ha.
  destruct (accessor program (tq (it_name it)) n) as [h|].
  - destruct Ha as (f & k & -> & Hk & -> & _). rewrite Nat2N.id, nth_error_map, Hk. cbn.
    assert (Hin : In f (fl (sup (it_name it)))) by (eapply nth_error_In; exact Hk).
    assert (E : existsb (fun f0 => method_has f0 =? method_has f) (fl (sup (it_name it))) = true).
    { apply existsb_exists. exists f. split; [exact Hin|apply String.eqb_refl]. }
    rewrite E. destruct (find _ _) as [g|] eqn:Ef.
    + apply find_some in Ef. destruct Ef as [_ Ef]. apply String.eqb_eq in Ef.
      apply method_has_inj in Ef. subst g. reflexivity.
    + exfalso. apply (find_none _ _ Ef f) in Hin. rewrite String.eqb_refl in Hin. discriminate.
  - assert (E : existsb (fun f0 => method_has f0 =? n) (fl (sup (it_name it))) = false).
    { destruct (existsb _ _) eqn:E; [|reflexivity]. apply existsb_exists in E.
      destruct E as (f & Hf & E). apply String.eqb_eq in E. exfalso. exact (Ha f Hf E). }
    rewrite E. reflexivity.
Qed.

Lemma call_method it t f : In it its -> In f (fl (sup (it_name it))) ->
  call_accessor program (tq (it_name it)) (map (fun f => mfun f t) (fl (sup (it_name it))))
    (method_has f) = Some (mfun f t).
Proof.
  intros Hit Hf. rewrite call_own by exact Hit.
  assert (E : existsb (fun f0 => method_has f0 =? method_has f) (fl (sup (it_name it))) = true).
  { apply existsb_exists. exists f. split; [exact Hf|apply String.eqb_refl]. }
  rewrite E. destruct (find _ _) as [g|] eqn:Ef.
  - apply find_some in Ef. destruct Ef as [_ Ef]. apply String.eqb_eq in Ef.
    apply method_has_inj in Ef. subst g. reflexivity.
  - exfalso. apply (find_none _ _ Ef f) in Hf. rewrite String.eqb_refl in Hf. discriminate.
Qed.

(** The functions of the specification are those of the methods. *)
Lemma functions_method n tr f :
  In (n, tr, f) functions ->
  exists g, In g (bmeth tr) /\ n = method_has g /\ forall t, f t = mfun g t.
Proof.
  cbn [functions In]. intros H.
  repeat match goal with H : _ \/ _ |- _ => destruct H as [H|H] end; try contradiction;
    inversion H; subst.
  - exists "drop". cbn; auto.
  - exists "clone". cbn; auto.
  - exists "clone_from". cbn; auto.
  - exists "clone_into_raw". cbn; auto.
  - exists "eq". cbn; auto.
  - exists "hash". cbn; auto.
  - exists "fmt". cbn; auto.
Qed.

Lemma method_function g tr : In g (bmeth tr) -> In (method_has g, tr, mfun g) functions.
Proof.
  intros Hg. destruct tr; cbn in Hg; repeat destruct Hg as [Hg|Hg]; try contradiction; subst g;
    repeat first [left; reflexivity | right].
Qed.

Lemma bmeth_disjoint a b f : In f (bmeth a) -> In f (bmeth b) -> a = b.
Proof.
  intros H1 H2. destruct a; cbn in H1; repeat destruct H1 as [H1|H1]; try contradiction; subst f;
    destruct b; cbn in H2; repeat destruct H2 as [H2|H2]; try contradiction; try discriminate;
    reflexivity.
Qed.

Lemma in_fl f ss : In f (fl ss) <-> exists tr, In tr ss /\ In f (bmeth tr).
Proof. unfold fl. apply in_flat_map. Qed.

Theorem dispatch_fact it t : In it its ->
  exists tbl, build lib program (tq (it_name it)) t = Some tbl
  /\ (forall n tr f, In (n, tr, f) functions -> off (it_name it) tr ->
        call_accessor program (tq (it_name it)) tbl n = Some (f t))
  /\ (forall n tr f, In (n, tr, f) functions -> ~ off (it_name it) tr ->
        accessor program (tq (it_name it)) n = None)
  /\ (forall n, (forall tr f, ~ In (n, tr, f) functions) ->
        accessor program (tq (it_name it)) n = None).
Proof.
  intros Hit. eexists. split; [apply build_own; exact Hit|].
  destruct (sup_facts it Hit) as (_ & _ & Hsup). split; [|split].
  - intros n tr f Hf Hoff. apply functions_method in Hf. destruct Hf as (g & Hg & -> & ->).
    apply call_method; [exact Hit|]. apply in_fl. exists tr. split; [apply Hsup; exact Hoff|exact Hg].
  - intros n tr f Hf Hoff. apply functions_method in Hf. destruct Hf as (g & Hg & -> & _).
    pose proof (accessor_own it (method_has g) Hit) as Ha.
    destruct (accessor program (tq (it_name it)) (method_has g)) as [h|]; [|reflexivity].
    destruct Ha as (g' & k & E & Hk & _). apply method_has_inj in E. subst g'.
    apply nth_error_In, in_fl in Hk. destruct Hk as (tr' & Htr & Hg').
    rewrite (bmeth_disjoint _ _ _ Hg Hg') in Hoff. exfalso. apply Hoff, Hsup. exact Htr.
  - intros n Hn. pose proof (accessor_own it n Hit) as Ha.
    destruct (accessor program (tq (it_name it)) n) as [h|]; [|reflexivity].
    destruct Ha as (g & k & -> & Hk & _). apply nth_error_In, in_fl in Hk.
    destruct Hk as (tr & Htr & Hg). exfalso. apply (Hn tr (mfun g)). apply method_function. exact Hg.
Qed.

(** ** Drop first *)

Lemma mfun_drop f t : In f (fl (TDrop :: TClone :: TPartialEq :: THash :: TDebug :: [])) ->
  (exists p, mfun f t = FDrop p) -> f = "drop".
Proof.
  cbn. intros H (p & E). repeat destruct H as [H|H]; try contradiction; subst f;
    try discriminate; reflexivity.
Qed.

Lemma in_fl_all f ss : In f (fl ss) -> In f (fl (TDrop :: TClone :: TPartialEq :: THash :: TDebug :: [])).
Proof.
  rewrite !in_fl. intros (tr & _ & Hf). exists tr. split; [|exact Hf].
  destruct tr; cbn in Hf |- *; tauto.
Qed.

Theorem drop_first_fact it t : In it its -> off (it_name it) TDrop ->
  exists rest, build lib program (tq (it_name it)) t = Some (FDrop (DropOf t) :: rest)
               /\ forall p, ~ In (FDrop p) rest.
Proof.
  intros Hit Hd. destruct (sup_facts it Hit) as (_ & Hs & Hsup). rewrite build_own by exact Hit.
  destruct (sorted_drop_first _ Hs (proj2 (Hsup _) Hd)) as (l' & E). rewrite E in *. cbn [fl flat_map].
  change (bmeth TDrop) with ["drop"]. cbn [app map]. eexists. split; [reflexivity|].
  intros p Hin. apply in_map_iff in Hin. destruct Hin as (f & Ef & Hf).
  assert (f = "drop") as ->.
  { eapply mfun_drop; [apply in_fl_all with (ss := l'); exact Hf|]. exists p; exact Ef. }
  apply in_fl in Hf. destruct Hf as (tr & Htr & Hf).
  assert (tr = TDrop) as -> by (apply (bmeth_disjoint _ _ "drop" Hf); left; reflexivity).
  apply sorted_nodup in Hs. inversion Hs; subst. contradiction.
Qed.

(** ** Conversions *)

Lemma from_conversions q b ss : known b -> In b ss ->
  exists d, tm_get b m = Some d
  /\ from_exprs (conversions c m q ss) q (kprefix lib b, String.append (kname b) "VTable")
     = Some (conversion_exprs m d).
Proof.
  intros Hk H. destruct (known_get b Hk) as (sb & Eb). eexists. split; [exact Eb|].
  revert H. unfold conversions. induction ss as [|st ss IH]; [intros []|]. intros H.
  cbn [flat_map].
  rewrite from_exprs_app. destruct (tm_get st m) as [d|] eqn:E.
  - destruct (get_known _ _ E) as (Hks & Hm & Hn). cbn [from_exprs]. rewrite qname_eqb_refl.
    cbn [andb]. unfold td_vtable at 1. rewrite Hn, trait_prefix_eq.
    replace (kprefix (cf_crate c) st) with (kprefix lib st) by (rewrite Hc; reflexivity).
    destruct (qname_eqb _ _) eqn:Eq.
    + apply qname_eqb_eq in Eq. injection Eq as E1 E2. apply append_inj_r in E2.
      assert (b = st) by (apply (kname_inj lib); assumption). subst st.
      rewrite Eb in E. inversion E; subst d. reflexivity.
    + destruct H as [->|H]; [rewrite qname_eqb_refl in Eq; discriminate|]. apply IH; exact H.
  - destruct H as [->|H]; [congruence|]. cbn. apply IH; exact H.
Qed.

Lemma conversion_methods d :
  conversion_exprs m d = map method_has (fl (td_supers d) ++ td_methods d).
Proof.
  unfold conversion_exprs, fl. rewrite map_app. f_equal.
  induction (td_supers d) as [|st ss IH]; [reflexivity|]. cbn.
  rewrite map_app, IH, methods_of_m. reflexivity.
Qed.

Lemma build_std b t : std b = true ->
  exists d, tm_get b m = Some d
  /\ build lib program (lib_mod lib, String.append (kname b) "VTable") t
     = Some (map (fun f => mfun f t) (fl (td_supers d) ++ td_methods d)).
Proof.
  intros Hb. unfold build, program. rewrite build_exprs_app.
  destruct b; try discriminate; rewrite (tb_std _ _ _ Ht) by reflexivity;
    (eexists; split; [reflexivity|]); cbn; unfold qname_eqb, lib_fun; cbn [fst snd];
    rewrite !String.eqb_refl; cbn; rewrite ?String.eqb_refl; reflexivity.
Qed.

Theorem convert_fact it b t : In it its -> known b ->
  off (it_name it) b ->
  (forall x, off (it_name it) (TCustom x) -> forall y, off x y -> off (it_name it) y) ->
  (off (it_name it) TDrop) ->
  (off (it_name it) TEq -> off (it_name it) TPartialEq) ->
  exists ta tb,
    build lib program (tq (it_name it)) t = Some ta
    /\ build lib program (kprefix lib b, String.append (kname b) "VTable") t = Some tb
    /\ convert program (tq (it_name it)) (kprefix lib b, String.append (kname b) "VTable") ta = Some tb.
Proof.
  intros Hit Hk Hoff Htr Hdrop Heq.
  destruct (sup_facts it Hit) as (Ea & Hsa & Hsup).
  exists (map (fun f => mfun f t) (fl (sup (it_name it)))).
  destruct (from_conversions (tq (it_name it)) b (sup (it_name it)) Hk (proj2 (Hsup b) Hoff))
    as (d & Ed & Ef).
  exists (map (fun f => mfun f t) (fl (td_supers d) ++ td_methods d)).
  split; [apply build_own; exact Hit|]. split.
  - destruct (std b) eqn:Hb.
    + destruct (build_std b t Hb) as (d' & Ed' & Eb). rewrite Ed in Ed'. inversion Ed'; subst d'.
      unfold kprefix. rewrite Hb. exact Eb.
    + destruct b; try discriminate. cbn in Hk. apply in_map_iff in Hk.
      destruct Hk as (it' & <- & Hit'). cbn [kprefix std kname].
      change ("", String.append (it_name it') "VTable") with (tq (it_name it')).
      rewrite build_own by exact Hit'. destruct (sup_facts it' Hit') as (E' & _).
      rewrite Ed in E'. inversion E'; subst d. cbn. rewrite app_nil_r. reflexivity.
  - unfold convert. destruct (program_own it Hit) as (_ & _ & _ & -> & _).
    destruct (gen_own it) as (_ & _ & _ & ->). rewrite Ef, conversion_methods.
    assert (Hin : forall f, In f (fl (td_supers d) ++ td_methods d) -> In f (fl (sup (it_name it)))).
    { intros f Hf. apply in_app_iff in Hf. destruct Hf as [Hf|Hf].
      - apply in_fl in Hf. destruct Hf as (tr & Hin & Hf). apply in_fl. exists tr.
        split; [|exact Hf]. apply Hsup. destruct (std b) eqn:Hb.
        + rewrite (tb_std _ _ _ Ht) in Ed by exact Hb.
          destruct b; try discriminate; cbn in Ed; inversion Ed; subst d; cbn in Hin;
            repeat destruct Hin as [Hin|Hin]; try contradiction; subst tr;
            try exact Hdrop; apply Heq; exact Hoff.
        + destruct b; try discriminate. cbn in Hk. apply in_map_iff in Hk.
          destruct Hk as (it' & <- & Hit'). destruct (sup_facts it' Hit') as (E' & _ & Hs').
          rewrite Ed in E'. inversion E'; subst d. cbn in Hin.
          eapply Htr; [exact Hoff|]. apply Hs'. exact Hin.
      - destruct (get_known _ _ Ed) as (_ & Hm & _). rewrite Hm in Hf. apply in_fl. exists b.
        split; [apply Hsup; exact Hoff|exact Hf]. }
    revert Hin. generalize (fl (td_supers d) ++ td_methods d) as fs.
    induction fs as [|f fs IH]; intros Hin; [reflexivity|]. cbn [map omap_list].
    rewrite call_method; [|exact Hit|apply Hin; left; reflexivity].
    rewrite IH; [reflexivity|]. intros g Hg. apply Hin. right; exact Hg.
Qed.

End Gen.
