(** * DynCapsFacts: a table need only offer the functions that a program uses (C87). *)

From Verif Require Import Base Value DynMachine DynReach DynCaps DynFacts8.
From Verif Require Import Derive DeriveSem DeriveSpec DeriveProofs DeriveMap DeriveItems DeriveCheck DeriveFacts.
From Coq Require Import String List Permutation.
Import ListNotations.
Local Open Scope string_scope.
Local Open Scope list_scope.

Lemma c87_smaller_tables_fact :
  forall (V : Type) (D : HasDrop V) (C : HasClone V) (E : HasPartialEq V) (H : HasHash V) (F : HasDebug V)
    (B : VTable V) (S : Sized V) (P : profile) (G : tenv) prog,
  (forall t, drop_fn (build_vtable t) = DropOf t) ->
  (forall s c, In s prog -> In c (needs s) -> offers c) ->
  acts_full V D C E H F B S P G prog.
Proof.
  intros V D C E H F B S P G prog HD Ho.
  exact (full_table P G C E H F prog HD Ho).
Qed.

(** The library's own tables: [CloneVTable], [PartialEqVTable], [EqVTable], [HashVTable],
    [DebugVTable], [DropVTable]; whatever the functions they do not have. *)
Lemma c87_library_fact :
  forall (P : profile) (G : tenv) prog,
  ((forall s c, In s prog -> In c (needs s) -> c = CapClone) ->
   forall E H F, acts_full CloneVTable _ _ E H F _ _ P G prog) /\
  ((forall s c, In s prog -> In c (needs s) -> c = CapEq) ->
   forall C H F, acts_full PartialEqVTable _ C _ H F _ _ P G prog) /\
  ((forall s c, In s prog -> In c (needs s) -> c = CapEq) ->
   forall C H F, acts_full EqVTable _ C _ H F _ _ P G prog) /\
  ((forall s c, In s prog -> In c (needs s) -> c = CapHash) ->
   forall C E F, acts_full HashVTable _ C E _ F _ _ P G prog) /\
  ((forall s c, In s prog -> In c (needs s) -> c = CapFmt) ->
   forall C E H, acts_full DebugVTable _ C E H _ _ _ P G prog) /\
  ((forall s, In s prog -> needs s = []) ->
   forall C E H F, acts_full DropVTable _ C E H F _ _ P G prog).
Proof.
  intros P G prog.
  csplit; intros Hn; intros; apply c87_smaller_tables_fact; try reflexivity;
    intros s c Hs Hc; first [rewrite (Hn s c Hs Hc)|rewrite (Hn s Hs) in Hc; destruct Hc];
    intros t; cbn; auto.
Qed.

(** The table [(DropFn, V)] of a container made from one without destructors: it offers what [V] offers. *)
Lemma c87_paired_fact :
  forall (V : Type) (C : HasClone V) (E : HasPartialEq V) (H : HasHash V) (F : HasDebug V)
    (B : VTable V) (S : Sized V) (P : profile) (G : tenv) prog,
  (forall s c, In s prog -> In c (needs s) -> offers c) ->
  acts_full (drop_ptr * V) _ _ _ _ _ _ _ P G prog.
Proof.
  intros V C E H F B S P G prog Ho. apply c87_smaller_tables_fact; [reflexivity|].
  intros s c Hs Hc t. specialize (Ho s c Hs Hc t). destruct c; exact Ho.
Qed.

Lemma c87_derived_fact :
  forall attrs lib its depth it (P : profile) (G : tenv) prog,
    hierarchy its -> (List.length its + 8 < depth)%nat ->
    crate_named attrs lib -> In it its ->
    (forall s c, In s prog -> In c (needs s) -> inherits its (TCustom (it_name it)) (cap_trait c)) ->
    exists out,
      dync_mod depth attrs its = Ret out /\
      acts_full (gtable lib (lib_items lib ++ out) (vtable_of "" (it_name it))) _ _ _ _ _ _ _ P G prog.
Proof.
  intros attrs lib its depth it P G prog Hh Hd Hs Hit Hall. destruct (config_crate _ _ Hs) as [Hc Hid]; clear Hs; rename Hc into Hs.
  destruct (expand_mod lib _ Hs Hid depth attrs its Hh Hd eq_refl) as (m & E & Ht).
  eexists. split; [exact E|].
  assert (K : forall n tr f t, In (n, tr, f) functions -> offered its (TCustom (it_name it)) tr ->
    exists tbl, build lib (lib_items lib ++ flat_map (gen_items lib (config_parse attrs) m) its)
                  (vtable_of "" (it_name it)) t = Some tbl
    /\ call_accessor (lib_items lib ++ flat_map (gen_items lib (config_parse attrs) m) its)
                  (vtable_of "" (it_name it)) tbl n = Some (f t)).
  { intros n tr f t Hf Ho.
    destruct (dispatch_fact lib _ Hs its _ m Ht (h_distinct _ Hh) it t Hit) as (tbl & H1 & H2 & _).
    exists tbl. split; [exact H1|]. eapply H2; eassumption. }
  apply c87_smaller_tables_fact.
  - intros t. cbn [drop_fn gtable_drop build_vtable gtable_build]. unfold g_call; cbn [g_fields].
    destruct (K "drop_fn" TDrop _ t ltac:(cbn; tauto) (or_introl eq_refl)) as (tbl & -> & ->). reflexivity.
  - intros s c Hi Hc t. pose proof (or_intror (Hall s c Hi Hc) : offered its (TCustom (it_name it)) (cap_trait c)) as Ho.
    destruct c; cbn [cap_trait] in Ho;
    cbn [clone_fn clone_from_fn clone_into_raw_fn eq_fn hash_fn fmt_fn
      gtable_clone gtable_eq gtable_hash gtable_fmt build_vtable gtable_build];
    unfold g_call; cbn [g_fields].
    + split; [|split].
      * destruct (K "clone_fn" TClone _ t ltac:(cbn; tauto) Ho) as (tbl & -> & ->). reflexivity.
      * destruct (K "clone_from_fn" TClone _ t ltac:(cbn; tauto) Ho) as (tbl & -> & ->). reflexivity.
      * destruct (K "clone_into_raw_fn" TClone _ t ltac:(cbn; tauto) Ho) as (tbl & -> & ->). reflexivity.
    + destruct (K "eq_fn" TPartialEq _ t ltac:(cbn; tauto) Ho) as (tbl & -> & ->). reflexivity.
    + destruct (K "hash_fn" THash _ t ltac:(cbn; tauto) Ho) as (tbl & -> & ->). reflexivity.
    + destruct (K "fmt_fn" TDebug _ t ltac:(cbn; tauto) Ho) as (tbl & -> & ->). reflexivity.
Qed.

(** The accounting of C85, for the table of any trait of the hierarchy. *)
Lemma c87_derived_accounting_fact :
  forall attrs lib its depth it (P : profile) (G : tenv) prog,
    hierarchy its -> (List.length its + 8 < depth)%nat ->
    crate_named attrs lib -> In it its ->
    wf_tenv G -> clones_ok G ->
    (forall s c, In s prog -> In c (needs s) -> inherits its (TCustom (it_name it)) (cap_trait c)) ->
    exists out,
      dync_mod depth attrs its = Ret out /\
      let V := gtable lib (lib_items lib ++ out) (vtable_of "" (it_name it)) in
      forall rs (st : dstate (V := V)),
      Forall (dstep_typed G) prog -> dyn_in_range P G prog (d_init (V := V)) ->
      drun P G prog (d_init (V := V)) = (rs, st) ->
      (forall u, ~ In (UB u) rs) /\
      (In Abort rs \/
       List.length rs = List.length prog /\
       exists lost again leak,
         Permutation (given G prog rs ++ cloned G (w_trace (d_world st)) ++ again)
                     (stored G st ++ taken G prog rs ++ dropped G (w_trace (d_world st)) ++ lost) /\
         Permutation (w_live (d_world st)) (obj_blocks_of st ++ leak) /\
         (none_left_dropped prog rs -> again = []) /\
         (forall as_, rs = map Ret as_ -> keeps_all prog as_ -> lost = [] /\ leak = [])).
Proof.
  intros attrs lib its depth it P G prog Hh Hd Hs Hit HG HC Hall.
  destruct (c87_derived_fact attrs lib its depth it P G prog Hh Hd Hs Hit Hall) as (out & E & T & _ & _ & HS & H1 & H2).
  exists out. split; [exact E|]. cbv zeta in *. intros rs st Hty Hr He.
  pose proof (c85_accounting_fact _ T P G HG HC prog rs st Hty) as K.
  rewrite H1 in He. apply H2 in Hr. specialize (K Hr He). rewrite HS in K. exact K.
Qed.
