(** * DeriveCheck: the generated program type-checks, and which accessor traits it implements. *)

From Verif Require Import Base Value Derive DeriveSem DeriveSpec DeriveProofs DeriveMap DeriveItems.
From Coq Require Import Ascii Sorting.Sorted Relations.
Local Open Scope string_scope.
Local Open Scope list_scope.

Lemma list_eqb_map {A B C} (eqb : A -> B -> bool) (f : C -> A) (g : C -> B) l :
  (forall x, In x l -> eqb (f x) (g x) = true) -> list_eqb eqb (map f l) (map g l) = true.
Proof.
  induction l as [|x l IH]; cbn; intros H; [reflexivity|].
  rewrite (H x (or_introl eq_refl)), IH; [reflexivity|]. intros y Hy; apply H; right; exact Hy.
Qed.

Lemma NoDup_app_intro {A} (l l' : list A) :
  NoDup l -> NoDup l' -> (forall x, In x l -> ~ In x l') -> NoDup (l ++ l').
Proof.
  induction l as [|x l IH]; cbn; intros H H' Hd; [exact H'|]. inversion H; subst. constructor.
  - rewrite in_app_iff. intros [Hin|Hin]; [contradiction|]. apply (Hd x); auto.
  - apply IH; auto.
Qed.

Lemma NoDup_flat_map_intro {A B} (f : A -> list B) l :
  NoDup l -> (forall x, In x l -> NoDup (f x)) ->
  (forall x y b, In x l -> In y l -> In b (f x) -> In b (f y) -> x = y) -> NoDup (flat_map f l).
Proof.
  induction l as [|x l IH]; cbn; intros H Hf Hd; [constructor|]. inversion H; subst.
  apply NoDup_app_intro.
  - apply Hf; auto.
  - apply IH; auto. intros y z b Hy Hz; apply Hd; auto.
  - intros b Hb Hb'. apply in_flat_map in Hb'. destruct Hb' as (y & Hy & Hb').
    assert (x = y) by (apply (Hd x y b); auto). subst. contradiction.
Qed.

Section Check.
Context (lib : string) (c : config) (Hc : cf_crate c = lib).
Context (its : list item_trait) (off : string -> trait -> Prop) (m : trait_map).
Context (Ht : tables its off m).
Context (Hnd : NoDup (map it_name its)).
Context (Hres : forall it, In it its -> ~ In (it_name it) reserved).
Context (Hcl : forall a x y, off a (TCustom x) -> off x y -> off a y).
Context (Hdrop : forall a, off a TDrop).
Context (Heq : forall a, off a TEq -> off a TPartialEq).
Context (Hirr : forall it, In it its -> ~ off (it_name it) (TCustom (it_name it))).

Notation sup := (sup m).
Notation program := (program lib c its m).
Notation gen_items := (gen_items lib c m).
Notation known := (known its).

Definition hname (t : trait) : qname := (kprefix lib t, String.append "Has" (kname t)).
Definition vname (t : trait) : qname := (kprefix lib t, String.append (kname t) "VTable").

Lemma hname_inj a b : hname a = hname b -> a = b.
Proof.
  unfold hname. intros E. injection E as E1 E2. apply (kname_inj lib); assumption.
Qed.

Lemma vname_inj a b : vname a = vname b -> a = b.
Proof.
  unfold vname. intros E. injection E as E1 E2. apply append_inj_r in E2.
  apply (kname_inj lib); assumption.
Qed.

Lemma get_has t d : tm_get t m = Some d -> (trait_prefix t (cf_crate c), td_has d) = hname t.
Proof.
  intros E. destruct (get_known its off m Ht t d E) as (_ & _ & Hn). unfold hname, td_has.
  rewrite Hn, trait_prefix_eq, Hc. reflexivity.
Qed.

Lemma get_vtable t d : tm_get t m = Some d -> (trait_prefix t (cf_crate c), td_vtable d) = vname t.
Proof.
  intros E. destruct (get_known its off m Ht t d E) as (_ & _ & Hn). unfold vname, td_vtable.
  rewrite Hn, trait_prefix_eq, Hc. reflexivity.
Qed.

(** ** Accessor traits *)

Definition kdeps (t : trait) : list qname :=
  match t with
  | TEq => [hname TPartialEq]
  | TCustom s => has_deps c m (sup s)
  | _ => []
  end.

Lemma has_deps_in ss h : In h (has_deps c m ss) <-> exists st, In st ss /\ known st /\ h = hname st.
Proof.
  unfold has_deps. rewrite in_flat_map. split.
  - intros (st & Hin & H). exists st. destruct (tm_get st m) as [d|] eqn:E; [|destruct H].
    destruct H as [<-|[]]. split; [exact Hin|]. split; [|apply get_has; exact E].
    apply (get_known its off m Ht _ _ E).
  - intros (st & Hin & Hk & ->). exists st. split; [exact Hin|].
    destruct (known_get its off m Ht st Hk) as (ss' & E). rewrite E. left. apply (get_has _ _ E).
Qed.

Lemma has_trait_foreign h l :
  (forall i, In i l -> match i with GHasTrait h' _ _ _ => h' <> h | _ => True end) ->
  has_trait l h = None.
Proof.
  induction l as [|i l IH]; intros H; [reflexivity|].
  assert (Hi := H i (or_introl eq_refl)).
  assert (Hl : has_trait l h = None) by (apply IH; intros j Hj; apply H; right; exact Hj).
  destruct i; cbn; try exact Hl. rewrite qname_eqb_neq by congruence. exact Hl.
Qed.

Lemma gen_traits it i : In i (gen_items it) ->
  match i with
  | GHasTrait h _ _ _ => h = hq (it_name it)
  | GHasImpl _ q _ _ | GStruct q _ | GBuild _ _ q _ | GFrom q _ _ _ => q = tq (it_name it)
  | GDowncast h => h = hq (it_name it)
  end.
Proof.
  unfold DeriveItems.gen_items. rewrite !in_app_iff. intros [H|[H|H]].
  - revert H. generalize 0%N as idx. induction (sup (it_name it)) as [|st ss IH];
      intros idx H; cbn in H; [destruct H|].
    destruct (tm_get st m); [|eapply IH; exact H]. destruct H as [<-|H]; [reflexivity|].
    eapply IH; exact H.
  - cbn in H. repeat destruct H as [<-|H]; try reflexivity. destruct H.
  - unfold conversions in H. apply in_flat_map in H. destruct H as (st & _ & H).
    destruct (tm_get st m); [|destruct H]. destruct H as [<-|[]]. reflexivity.
Qed.

Lemma gen_has_trait it :
  has_trait (gen_items it) (hq (it_name it)) = Some (false, has_deps c m (sup (it_name it)), []).
Proof.
  unfold DeriveItems.gen_items. rewrite has_trait_app, has_trait_foreign.
  - cbn [app has_trait]. rewrite qname_eqb_refl. reflexivity.
  - generalize 0%N as idx. induction (sup (it_name it)) as [|st ss IH]; intros idx i H; [destruct H|].
    cbn in H. destruct (tm_get st m); [|eapply IH; exact H]. destruct H as [<-|H]; [exact I|].
    eapply IH; exact H.
Qed.

Definition ksig (t : trait) : list (string * qname) :=
  map (fun f => (method_has f, (lib_mod lib, method_ty f))) (bmeth t).

Lemma known_has_trait t : known t ->
  has_trait program (hname t) = Some (trait_unsafe t, kdeps t, ksig t).
Proof.
  intros Hk. unfold DeriveItems.program. rewrite has_trait_app. destruct t;
    try (cbn; unfold hname, kprefix, qname_eqb; cbn; rewrite !String.eqb_refl; cbn; reflexivity).
  cbn in Hk. apply in_map_iff in Hk. destruct Hk as (it & <- & Hit).
  cbn [kdeps trait_unsafe hname kprefix std kname ksig bmeth].
  change (hname (TCustom (it_name it))) with (hq (it_name it)).
  rewrite has_trait_foreign.
  2: { intros i Hi. destruct i; auto. intros ->. unfold lib_items in Hi. cbn in Hi.
       repeat destruct Hi as [Hi|Hi]; try contradiction; try discriminate;
       injection Hi; intros; exact (lib_mod_neq _ (ltac:(eassumption))). }
  apply in_split in Hit. destruct Hit as (l1 & l2 & E). rewrite E, flat_map_app. cbn [flat_map].
  rewrite has_trait_app, has_trait_foreign.
  2: { intros i Hi. apply in_flat_map in Hi. destruct Hi as (it' & Hin & Hi).
       apply gen_traits in Hi. destruct i; auto. subst name. intros E'. apply hq_inj in E'.
       rewrite E, map_app in Hnd. apply NoDup_remove_2 in Hnd. apply Hnd.
       rewrite <- E', in_app_iff. left. apply in_map. exact Hin. }
  rewrite has_trait_app, gen_has_trait. reflexivity.
Qed.

(** ** Implementations *)

Lemma has_impls_implements h q idx ss :
  implements (has_impls c m q idx ss) h q = true <-> exists st, In st ss /\ known st /\ h = hname st.
Proof.
  revert idx. unfold implements. induction ss as [|st ss IH]; intros idx; cbn [has_impls existsb].
  - split; [discriminate|]. intros (st & [] & _).
  - destruct (tm_get st m) as [d|] eqn:E.
    + cbn [existsb]. rewrite (get_has st d E), orb_true_iff, IH, andb_true_iff, !qname_eqb_eq. split.
      * intros [[-> _]|(st' & H)]; [|exists st'; cbn; tauto].
        exists st. cbn. repeat split; auto. apply (get_known its off m Ht _ _ E).
      * intros (st' & [<-|Hin] & Hk & ->); [left; auto|]. right. exists st'. auto.
    + rewrite IH. split; intros (st' & Hin & Hk & ->).
      * exists st'. cbn; auto.
      * exists st'. split; [|auto]. destruct Hin as [<-|Hin]; [|exact Hin].
        destruct (known_get its off m Ht st Hk) as (x & Ex). congruence.
Qed.

Lemma implements_own it b : In it its -> known b ->
  implements program (hname b) (tq (it_name it)) = true
  <-> b = TCustom (it_name it) \/ off (it_name it) b.
Proof.
  intros Hit Hk. destruct (program_own lib c Hc its m Hnd it Hit) as (_ & _ & _ & _ & ->).
  unfold DeriveItems.gen_items. rewrite !implements_app, !orb_true_iff, has_impls_implements.
  destruct (sup_facts its off m Ht it Hit) as (_ & _ & Hs). split.
  - intros [(st & Hin & _ & E)|[H|H]].
    + apply hname_inj in E. subst. right. apply Hs. exact Hin.
    + cbn in H. rewrite !orb_false_r, andb_true_iff, !qname_eqb_eq in H. destruct H as [E _].
      left. apply hname_inj. exact E.
    + exfalso. revert H. clear Hs. unfold implements, conversions.
      induction (sup (it_name it)) as [|st ss IH]; cbn; [discriminate|].
      destruct (tm_get st m); cbn; exact IH.
  - intros [->|Ho].
    + right. left. change (hname (TCustom (it_name it))) with (hq (it_name it)).
      unfold implements. cbn [existsb]. rewrite !qname_eqb_refl. reflexivity.
    + left. exists b. split; [apply Hs; exact Ho|auto].
Qed.

(** ** Every item is well typed *)

Lemma own_fields it : In it its ->
  struct_fields program (tq (it_name it))
  = Some (map (fun f => (lib_mod lib, method_ty f)) (fl (sup (it_name it)))).
Proof.
  intros Hit. destruct (program_own lib c Hc its m Hnd it Hit) as (-> & _).
  apply (gen_own lib c Hc its off m Ht it).
Qed.

Lemma numbered_sig p i fs :
  list_eqb (fun h s => (hm_name h =? fst s) && qname_eqb (hm_ty h) (snd s)) (number_methods p i fs)
           (map (fun f => (method_has f, (p, method_ty f))) fs) = true.
Proof.
  revert i. induction fs as [|f fs IH]; intros i; cbn; [reflexivity|].
  rewrite String.eqb_refl, qname_eqb_refl, IH. reflexivity.
Qed.

Lemma numbered_fields p pre fs post :
  forallb (fun h => opt_qname_eqb
                      (nth_error (map (fun f => (p, method_ty f)) (pre ++ fs ++ post))
                                 (N.to_nat (hm_idx h))) (Some (hm_ty h)))
          (number_methods p (lenN pre) fs) = true.
Proof.
  revert pre. induction fs as [|f fs IH]; intros pre; [reflexivity|].
  cbn [number_methods forallb]. apply andb_true_intro. split.
  - cbn [hm_idx hm_ty]. unfold lenN. rewrite Nat2N.id, nth_error_map, nth_error_app2 by lia.
    rewrite Nat.sub_diag. cbn. apply qname_eqb_refl.
  - replace (lenN pre + 1)%N with (lenN (pre ++ [f])) by (unfold lenN; rewrite app_length; cbn; lia).
    replace (pre ++ (f :: fs) ++ post) with ((pre ++ [f]) ++ fs ++ post)
      by (rewrite <- app_assoc; reflexivity).
    apply IH.
Qed.

Lemma methods_lib t d f : tm_get t m = Some d -> number_methods (trait_prefix t (cf_crate c)) f (td_methods d)
                          = number_methods (lib_mod lib) f (bmeth t).
Proof.
  intros E. destruct (get_known its off m Ht t d E) as (_ & -> & _).
  rewrite trait_prefix_eq, Hc. destruct t; reflexivity.
Qed.

Lemma deps_implemented it st : In it its -> known st -> off (it_name it) st ->
  forallb (fun h => implements program h (tq (it_name it))) (kdeps st) = true.
Proof.
  intros Hit Hk Ho. apply forallb_forall. intros h Hh. destruct st; try (destruct Hh; fail).
  - destruct Hh as [<-|[]]. apply implements_own; [exact Hit|exact I|]. right. apply Heq. exact Ho.
  - cbn in Hk. apply in_map_iff in Hk. destruct Hk as (it' & <- & Hit').
    cbn [kdeps] in Hh. apply has_deps_in in Hh. destruct Hh as (st & Hin & Hkst & ->).
    apply implements_own; [exact Hit|exact Hkst|]. right.
    apply (Hcl _ (it_name it')); [exact Ho|].
    apply (sup_facts its off m Ht it' Hit'). exact Hin.
Qed.

Lemma has_impls_ok it : In it its -> forall post pre,
  fl (sup (it_name it)) = pre ++ fl post -> incl post (sup (it_name it)) ->
  forallb (item_ok lib program) (has_impls c m (tq (it_name it)) (lenN pre) post) = true.
Proof.
  intros Hit. induction post as [|st post IH]; intros pre E Hi; [reflexivity|].
  cbn [has_impls]. destruct (tm_get st m) as [d|] eqn:Ed.
  - destruct (get_known its off m Ht st d Ed) as (Hk & Hm & Hn).
    assert (Hoff : off (it_name it) st)
      by (apply (sup_facts its off m Ht it Hit); apply Hi; left; reflexivity).
    cbn [forallb]. apply andb_true_intro. split.
    + rewrite (get_has st d Ed), (methods_lib st d _ Ed). cbn [item_ok].
      rewrite (known_has_trait st Hk), (own_fields it Hit), Bool.eqb_reflx. cbn [andb].
      unfold ksig. rewrite numbered_sig. cbn [andb]. rewrite (deps_implemented it st Hit Hk Hoff).
      rewrite andb_true_r, E. unfold fl. cbn [flat_map]. apply numbered_fields.
    + rewrite Hm. replace (lenN pre + lenN (bmeth st))%N with (lenN (pre ++ bmeth st))
        by (unfold lenN; rewrite app_length; lia).
      apply IH; [|intros x Hx; apply Hi; right; exact Hx].
      rewrite E. unfold fl. cbn [flat_map]. rewrite app_assoc. reflexivity.
  - apply IH; [|intros x Hx; apply Hi; right; exact Hx]. rewrite E. unfold fl. cbn [flat_map].
    assert (bmeth st = []) as ->; [|reflexivity].
    rewrite <- (methods_of_m its off m Ht). unfold methods_of. rewrite Ed. reflexivity.
Qed.

Lemma method_ty_listed f ss : In f (fl ss) -> existsb (String.eqb (method_ty f)) lib_fn_types = true.
Proof.
  intros Hf. apply in_fl_all in Hf. cbn in Hf.
  repeat match goal with H : _ \/ _ |- _ => destruct H as [H|H] end; try contradiction;
    subst f; reflexivity.
Qed.

Lemma constructor_ok ss :
  list_eqb (fun e f => match lib_fun lib (fst e) (snd e) 0 with
                       | Some (_, ty) => qname_eqb ty f
                       | None => false
                       end)
           (constructor_exprs c m ss) (map (fun f => (lib_mod lib, method_ty f)) (fl ss)) = true.
Proof.
  assert (Happ : forall A B (g : A -> B -> bool) a b x y, list_eqb g a x = true ->
                   list_eqb g b y = true -> list_eqb g (a ++ b) (x ++ y) = true).
  { intros A B g a. induction a as [|u a IH]; intros b [|v x] y; cbn; intros E1 E2; try discriminate.
    - exact E2.
    - apply andb_true_iff in E1. destruct E1 as [-> E1]. cbn. apply IH; assumption. }
  unfold constructor_exprs, fl. induction ss as [|st ss IH]; [reflexivity|].
  cbn [flat_map]. rewrite map_app. apply Happ; [|exact IH].
  destruct (tm_get st m) as [d|] eqn:E.
  - destruct (get_known its off m Ht _ _ E) as (Hk & Hm & Hn). unfold td_bytes.
    rewrite Hm, Hn, trait_prefix_eq, Hc. apply list_eqb_map. intros f Hf. cbn [fst snd].
    rewrite lib_fun_method by exact Hf. apply qname_eqb_refl.
  - rewrite <- (methods_of_m its off m Ht). unfold methods_of. rewrite E. reflexivity.
Qed.

Lemma known_fields b d : known b -> tm_get b m = Some d ->
  struct_fields program (vname b)
  = Some (map (fun f => (lib_mod lib, method_ty f)) (fl (td_supers d) ++ td_methods d)).
Proof.
  intros Hk Ed. destruct (std b) eqn:Hb.
  - unfold DeriveItems.program. rewrite struct_fields_app.
    destruct b; try discriminate; rewrite (tb_std _ _ _ Ht) in Ed by reflexivity; cbn in Ed;
      inversion Ed; subst d; cbn; unfold qname_eqb; cbn [fst snd];
      rewrite !String.eqb_refl; reflexivity.
  - destruct b; try discriminate. cbn in Hk. apply in_map_iff in Hk. destruct Hk as (it & <- & Hit).
    change (vname (TCustom (it_name it))) with (tq (it_name it)). rewrite (own_fields it Hit).
    destruct (sup_facts its off m Ht it Hit) as (E & _). rewrite Ed in E. inversion E; subst d.
    cbn. rewrite app_nil_r. reflexivity.
Qed.

Lemma known_supers b d it : In it its -> known b -> tm_get b m = Some d -> off (it_name it) b ->
  forall f, In f (fl (td_supers d) ++ td_methods d) -> In f (fl (sup (it_name it))).
Proof.
  intros Hit Hk Ed Hoff f Hf. destruct (sup_facts its off m Ht it Hit) as (_ & _ & Hsup).
  apply in_app_iff in Hf. destruct Hf as [Hf|Hf].
  - apply in_fl in Hf. destruct Hf as (tr & Hin & Hf). apply in_fl. exists tr.
    split; [|exact Hf]. apply Hsup. destruct (std b) eqn:Hb.
    + rewrite (tb_std _ _ _ Ht) in Ed by exact Hb.
      destruct b; try discriminate; cbn in Ed; inversion Ed; subst d; cbn in Hin;
        repeat destruct Hin as [Hin|Hin]; try contradiction; subst tr;
        try apply Hdrop; apply Heq; exact Hoff.
    + destruct b; try discriminate. cbn in Hk. apply in_map_iff in Hk.
      destruct Hk as (it' & <- & Hit'). destruct (sup_facts its off m Ht it' Hit') as (E' & _ & Hs').
      rewrite Ed in E'. inversion E'; subst d. cbn in Hin.
      eapply Hcl; [exact Hoff|]. apply Hs'. exact Hin.
  - destruct (get_known its off m Ht _ _ Ed) as (_ & Hm & _). rewrite Hm in Hf. apply in_fl.
    exists b. split; [apply Hsup; exact Hoff|exact Hf].
Qed.

Lemma conversions_ok it ss : In it its -> incl ss (sup (it_name it)) ->
  forallb (item_ok lib program) (conversions c m (tq (it_name it)) ss) = true.
Proof.
  intros Hit. unfold conversions. induction ss as [|st ss IH]; intros Hi; [reflexivity|].
  cbn [flat_map]. rewrite forallb_app. apply andb_true_intro. split.
  2: { apply IH. intros x Hx; apply Hi; right; exact Hx. }
  destruct (tm_get st m) as [d|] eqn:Ed; [|reflexivity].
  destruct (get_known its off m Ht st d Ed) as (Hk & Hm & Hn).
  assert (Hoff : off (it_name it) st)
    by (apply (sup_facts its off m Ht it Hit); apply Hi; left; reflexivity).
  cbn [forallb item_ok]. rewrite (get_vtable st d Ed), andb_true_r. apply andb_true_intro. split.
  - rewrite Hc. apply String.eqb_refl.
  - rewrite (known_fields st d Hk Ed), (conversion_methods its off m Ht). apply list_eqb_map.
    intros f Hf. pose proof (known_supers st d it Hit Hk Ed Hoff f Hf) as Hf'.
    pose proof (accessor_own lib c Hc its off m Ht Hnd it (method_has f) Hit) as Ha.
    destruct (accessor program (tq (it_name it)) (method_has f)) as [h|].
    + destruct Ha as (g & k & E & _ & _ & -> & _). apply method_has_inj in E. subst g.
      apply qname_eqb_refl.
    + exfalso. exact (Ha f Hf' eq_refl).
Qed.

Lemma gen_ok it : In it its -> forallb (item_ok lib program) (gen_items it) = true.
Proof.
  intros Hit. unfold DeriveItems.gen_items. rewrite !forallb_app.
  apply andb_true_intro; split; [|apply andb_true_intro; split].
  - apply (has_impls_ok it Hit (sup (it_name it)) []); [reflexivity|]. intros x Hx; exact Hx.
  - cbn [forallb]. rewrite andb_true_r.
    apply andb_true_intro; split; [|apply andb_true_intro; split; [|apply andb_true_intro; split;
      [|apply andb_true_intro; split]]].
    + cbn [item_ok]. apply forallb_forall. intros h Hh. apply has_deps_in in Hh.
      destruct Hh as (st & _ & Hk & ->). rewrite (known_has_trait st Hk). reflexivity.
    + cbn [item_ok]. rewrite (own_fields it Hit).
      assert (Hk : known (TCustom (it_name it))) by (cbn; apply in_map; exact Hit).
      change (hq (it_name it)) with (hname (TCustom (it_name it))).
      rewrite (known_has_trait _ Hk). cbn [trait_unsafe Bool.eqb ksig bmeth map].
      change (bmeth (TCustom (it_name it))) with (@nil string). cbn.
      apply forallb_forall. intros h Hh. cbn [kdeps] in Hh. apply has_deps_in in Hh.
      destruct Hh as (st & Hin & Hkst & ->). apply implements_own; auto. right.
      apply (sup_facts its off m Ht it Hit). exact Hin.
    + cbn [item_ok]. assert (Hk : known (TCustom (it_name it))) by (cbn; apply in_map; exact Hit).
      change (hq (it_name it)) with (hname (TCustom (it_name it))).
      rewrite (known_has_trait _ Hk). apply existsb_exists. exists (hname TDrop).
      split; [|apply qname_eqb_refl]. cbn [kdeps]. apply has_deps_in. exists TDrop.
      split; [|split; [exact I|reflexivity]]. apply (sup_facts its off m Ht it Hit). apply Hdrop.
    + cbn [item_ok]. apply forallb_forall. intros q Hq. apply in_map_iff in Hq.
      destruct Hq as (f & <- & Hf). cbn [fst snd]. rewrite String.eqb_refl.
      apply (method_ty_listed f _ Hf).
    + cbn [item_ok]. rewrite (own_fields it Hit), qname_eqb_refl. apply constructor_ok.
  - apply conversions_ok; [exact Hit|]. intros x Hx; exact Hx.
Qed.

(** ** Nothing is defined twice *)

Definition owner (d : defines) : bool * qname :=
  match d with
  | DTrait h | DDowncast h => (true, h)
  | DImpl _ q | DStruct q | DBuild q | DFrom q _ => (false, q)
  end.

Lemma gen_owner it d : In d (map item_defines (gen_items it)) ->
  owner d = (true, hq (it_name it)) \/ owner d = (false, tq (it_name it)).
Proof.
  intros H. apply in_map_iff in H. destruct H as (i & <- & Hi). apply gen_traits in Hi.
  destruct i; cbn; subst; auto.
Qed.

Lemma lib_owner d : In d (map item_defines (lib_items lib)) -> exists b s, owner d = (b, (lib_mod lib, s)).
Proof.
  intros H. cbn in H. repeat match goal with H : _ \/ _ |- _ => destruct H as [H|H] end;
    try contradiction; subst d; do 2 eexists; reflexivity.
Qed.

Lemma lib_nodup : NoDup (map item_defines (lib_items lib)).
Proof.
  cbn. repeat constructor; cbn; intros H;
    repeat match goal with H : _ \/ _ |- _ => destruct H as [H|H] end;
    try contradiction; discriminate.
Qed.

Lemma has_impls_defines q idx ss d : In d (map item_defines (has_impls c m q idx ss)) ->
  exists st, In st ss /\ d = DImpl (hname st) q.
Proof.
  revert idx. induction ss as [|st ss IH]; intros idx; cbn [has_impls]; [intros []|].
  destruct (tm_get st m) as [dd|] eqn:E.
  - cbn [map item_defines]. rewrite (get_has _ _ E). intros [<-|H].
    + exists st. cbn; auto.
    + destruct (IH _ H) as (st' & Hin & ->). exists st'. cbn; auto.
  - intros H. destruct (IH _ H) as (st' & Hin & ->). exists st'. cbn; auto.
Qed.

Lemma has_impls_nodup q idx ss : NoDup ss -> NoDup (map item_defines (has_impls c m q idx ss)).
Proof.
  intros H. revert idx. induction H as [|st ss Hn H IH]; intros idx; cbn [has_impls]; [constructor|].
  destruct (tm_get st m) as [d|] eqn:E; [|apply IH]. cbn [map item_defines]. constructor; [|apply IH].
  rewrite (get_has _ _ E). intros Hin. apply has_impls_defines in Hin.
  destruct Hin as (st' & Hin & E'). injection E' as E1 E2.
  assert (st = st') by (apply hname_inj; unfold hname; congruence). subst. contradiction.
Qed.

Lemma conversions_defines q ss d : In d (map item_defines (conversions c m q ss)) ->
  exists st, In st ss /\ d = DFrom q (vname st).
Proof.
  unfold conversions. intros H. apply in_map_iff in H. destruct H as (i & <- & Hi).
  apply in_flat_map in Hi. destruct Hi as (st & Hin & Hi). exists st. split; [exact Hin|].
  destruct (tm_get st m) as [d|] eqn:E; [|destruct Hi]. destruct Hi as [<-|[]]. cbn [item_defines].
  rewrite (get_vtable _ _ E). reflexivity.
Qed.

Lemma conversions_nodup q ss : NoDup ss -> NoDup (map item_defines (conversions c m q ss)).
Proof.
  intros H. unfold conversions. induction H as [|st ss Hn H IH]; cbn [flat_map]; [constructor|].
  rewrite map_app. apply NoDup_app_intro; [| exact IH |].
  - destruct (tm_get st m); cbn; repeat constructor; intros [].
  - intros d Hd Hd'. apply conversions_defines in Hd'. destruct Hd' as (st' & Hin & ->).
    destruct (tm_get st m) as [dd|] eqn:E; [|destruct Hd]. cbn [map item_defines] in Hd. destruct Hd as [Hd|[]].
    rewrite (get_vtable _ _ E) in Hd. injection Hd as E1 E2.
    assert (st = st') by (apply vname_inj; unfold vname; congruence). subst. contradiction.
Qed.

Lemma gen_nodup it : In it its -> NoDup (map item_defines (gen_items it)).
Proof.
  intros Hit. destruct (sup_facts its off m Ht it Hit) as (_ & Hs & Hsup).
  apply sorted_nodup in Hs. unfold DeriveItems.gen_items. rewrite !map_app.
  apply NoDup_app_intro; [apply has_impls_nodup; exact Hs| |].
  - apply NoDup_app_intro; [|apply conversions_nodup; exact Hs|].
    + cbn. repeat constructor; cbn; intuition discriminate.
    + intros d Hd Hd'. apply conversions_defines in Hd'. destruct Hd' as (st & _ & ->).
      cbn in Hd. intuition discriminate.
  - intros d Hd Hd'. apply has_impls_defines in Hd. destruct Hd as (st & Hin & ->).
    apply in_app_iff in Hd'. destruct Hd' as [Hd'|Hd'].
    + cbn [map item_defines In] in Hd'.
      repeat destruct Hd' as [Hd'|Hd']; try discriminate; try contradiction.
      assert (E : TCustom (it_name it) = st).
      { apply hname_inj. change (hname (TCustom (it_name it))) with (hq (it_name it)). congruence. }
      subst st. apply (Hirr it Hit). apply Hsup. exact Hin.
    + apply conversions_defines in Hd'. destruct Hd' as (st' & _ & E). discriminate.
Qed.

Theorem compiles_fact : compiles lib (flat_map gen_items its).
Proof.
  split.
  - rewrite map_app. apply NoDup_app_intro; [apply lib_nodup| |].
    + assert (E : map item_defines (flat_map gen_items its)
                  = flat_map (fun it => map item_defines (gen_items it)) its).
      { generalize its as l. induction l as [|it l IH]; [reflexivity|]. cbn. rewrite map_app, IH. reflexivity. }
      rewrite E. apply NoDup_flat_map_intro.
      * eapply NoDup_map_inv. exact Hnd.
      * intros it Hit. apply gen_nodup; exact Hit.
      * intros a b d Ha Hb Hda Hdb. apply gen_owner in Hda, Hdb.
        assert (En : it_name a = it_name b).
        { destruct Hda as [Ea|Ea], Hdb as [Eb|Eb]; rewrite Ea in Eb; try discriminate.
          - apply hq_inj. congruence.
          - apply tq_inj. congruence. }
        revert En Ha Hb. clear -Hnd. induction its as [|x l IH]; [intros _ []|]. cbn in Hnd.
        inversion Hnd; subst. intros En [<-|Ha] [<-|Hb]; auto.
        -- exfalso. apply H1. rewrite En. apply in_map. exact Hb.
        -- exfalso. apply H1. rewrite <- En. apply in_map. exact Ha.
    + intros d Hd Hd'. apply lib_owner in Hd. destruct Hd as (b & s & E).
      apply in_map_iff in Hd'. destruct Hd' as (i & Ei & Hi). apply in_flat_map in Hi.
      destruct Hi as (it & _ & Hi). apply (in_map item_defines) in Hi. rewrite Ei in Hi.
      apply gen_owner in Hi. rewrite E in Hi. unfold hq, tq in Hi.
      destruct Hi as [Hi|Hi]; injection Hi; intros; eapply lib_mod_neq; eassumption.
  - apply forallb_forall. intros i Hi. apply in_flat_map in Hi. destruct Hi as (it & Hit & Hi).
    pose proof (gen_ok it Hit) as H. rewrite forallb_forall in H. apply H. exact Hi.
Qed.

End Check.
