(** * PropertiesStatic: properties of the published signatures and trait implementations.

    Every theorem is closed by a lemma proved in another file.  The words used in the statements are
    defined in BorrowSpec.v ([whenever_used], [data_alive], [table_alive], [unchanged], [linked]) and
    ThreadsSpec.v ([promised], [typed_is], [hides], [implementor]). *)

From Verif Require Import Base Derive DeriveSem DeriveSpec DeriveProofs DeriveMap DeriveFacts.
From Verif Require Import Threads ThreadsSpec ThreadsFacts.
From Verif Require Import Borrow BorrowFlow BorrowSpec BorrowProofs BorrowFlowProofs.
From Coq Require Import String List.
Import ListNotations.
Local Open Scope list_scope.

(** A function of the crate, by name. *)
Definition named_fn (name : string) : fn :=
  match find (fun f => String.eqb (f_name f) name) dync_api with
  | Some f => f
  | None => Fn "" Owner ByRef Owner ToNothing Itself
  end.

Lemma named_in : forall f,
  find (fun g => String.eqb (f_name g) (f_name f)) dync_api = Some f -> In f dync_api.
Proof. intros f H. exact (proj1 (find_some _ _ H)). Qed.

(** [let mut x = vec; let mut v = x.as_mut_slice(); let a = v.get(..); read a; let mut b =
    v.reborrow_mut(); write b; let c = Slice::from(v); let d = c.clone(); drop c; read d; drop d; grow x;
    let e = x.as_slice(); let i = e.into_iter(); read i; drop x] *)
Definition static_ex : list stmt :=
  [ New; Call (named_fn "VecDyn::as_mut_slice") 0; Call (named_fn "SliceMut::get") 1; Read 2;
    Call (named_fn "SliceMut::reborrow_mut") 1; Write 3; Write 1;
    Call (named_fn "Slice::from(SliceMut)") 1; Call (named_fn "Slice::clone") 4; Drop 4; Read 5; Drop 5;
    Grow 0; Call (named_fn "VecDyn::as_slice") 0; Call (named_fn "Slice::into_iter") 6; Read 7; Drop 0 ].

Lemma static_ex_linked : only_calls static_ex linked.
Proof.
  intros f x H. cbn [static_ex In] in H.
  repeat (destruct H as [H|H];
          [first [discriminate H
                 |injection H as <- _; split; [apply named_in; vm_compute; reflexivity|split; vm_compute; discriminate]]|]).
  destruct H.
Qed.

(** ** C53 Views do not outlive their data *)

Theorem c53_refuted : forall name,
  name = "SliceCopy::from_slice"%string \/ name = "Slice::from_slice"%string ->
  exists f, In f dync_api /\ f_name f = name /\
    let p := [New; Call f 0; Drop 0; Read 1] in
    accepted p = true /\ ~ data_alive (after [New; Call f 0; Drop 0]) 1.
Proof. exact c53_refuted_fact. Qed.
Print Assumptions c53_refuted.
Theorem c53_partial : forall p,
  accepted p = true -> only_calls p linked ->
  whenever_used p (fun memory v => still_there memory v /\ data_alive memory v /\ table_alive memory v).
Proof. exact c53_partial_fact. Qed.
Print Assumptions c53_partial.
Example c53_ex : accepted static_ex = true /\ only_calls static_ex linked.
Proof. split; [vm_compute; reflexivity|exact static_ex_linked]. Qed.
(** The rules refuse to keep a view over a drop, a reallocation, a move of the view it was made from,
    and to write through a view while one made from it is still read; a view that is not used again
    forbids nothing. *)
Example c53_rules_ex :
  let get := named_fn "VecDyn::as_slice" in
  let slice := named_fn "VecDyn::as_mut_slice" in
  let sub := named_fn "SliceMut::reborrow" in
  accepted [New; Call get 0; Drop 0; Read 1] = false /\
  accepted [New; Call get 0; Grow 0; Read 1] = false /\
  accepted [New; Call slice 0; Call sub 1; Drop 1; Read 2] = false /\
  accepted [New; Call slice 0; Call sub 1; Write 1; Read 2] = false /\
  accepted [New; Call slice 0; Call get 0; Write 1] = false /\
  accepted [New; Call get 0; Read 1; Grow 0; New; Drop 0] = true.
Proof. vm_compute. auto 8. Qed.
(** The same for programs with branches and loops: every run, however long. *)
Theorem c53_flow_partial : forall g path,
  accepts g -> graph_calls g linked -> walk g 0 path ->
  exists p, run_does g path p /\
  whenever_used p (fun memory v => still_there memory v /\ data_alive memory v /\ table_alive memory v).
Proof. exact c53_flow_partial_fact. Qed.
Print Assumptions c53_flow_partial.
Local Open Scope nat_scope.
(** [let mut x = vec; loop { let v = if .. { break } else { x.as_slice() }; while .. { read v } drop v;
    grow x; if .. { let w = x.as_mut_slice(); write w; let u = Slice::from(w); if .. { read u }; drop w;
    drop u } } drop x] *)
Definition flow_ex : graph :=
  Graph [Owner; Shared; Exclusive; Shared]
  [ Node (INew 0) [1];
    Node INothing [2; 12];
    Node (ICall 1 (named_fn "VecDyn::as_slice") 0) [3];
    Node (IRead 1) [3; 4];
    Node (IDrop 1) [5];
    Node (IGrow 0) [6; 1];
    Node (ICall 2 (named_fn "VecDyn::as_mut_slice") 0) [7];
    Node (IWrite 2) [7; 8];
    Node (ICall 3 (named_fn "Slice::from(SliceMut)") 2) [9; 10];
    Node (IRead 3) [10];
    Node (IDrop 2) [11];
    Node (IDrop 3) [1];
    Node (IDrop 0) [] ].
Example c53_flow_ex : accepts flow_ex /\ graph_calls flow_ex linked /\
  walk flow_ex 0 [0; 1; 2; 3; 3; 4; 5; 6; 7; 8; 9; 10; 11; 1; 2; 3; 4; 5; 1; 12].
Proof.
  split; [exists (infer flow_ex 20); vm_compute; reflexivity|split].
  - intros d f x nx H. cbn [flow_ex g_nodes In] in H.
    repeat (destruct H as [H|H];
            [first [discriminate H
                   |injection H as _ <- _ _; split; [apply named_in; vm_compute; reflexivity|split; vm_compute; discriminate]]|]).
    destruct H.
  - apply (is_walk_ok flow_ex (_ :: _)). vm_compute. reflexivity.
Qed.
(** The rules refuse a loop that grows the vector under a view read in the next turn, and a view that is
    read after a branch in which its owner may have been dropped. *)
Example c53_flow_rules_ex :
  let get := named_fn "VecDyn::as_slice" in
  ~ accepts (Graph [Owner; Shared]
      [Node (INew 0) [1]; Node (ICall 1 get 0) [2]; Node (IRead 1) [3]; Node (IGrow 0) [2]]) /\
  ~ accepts (Graph [Owner; Shared]
      [Node (INew 0) [1]; Node (ICall 1 get 0) [2; 3]; Node (IDrop 0) [3]; Node (IRead 1) []]) /\
  accepts (Graph [Owner; Shared]
      [Node (INew 0) [1]; Node (ICall 1 get 0) [2; 3]; Node (IDrop 0) [4]; Node (IRead 1) [4];
       Node INothing []]).
Proof.
  split; [|split].
  - apply (refused_by _ [0; 1; 2; 3; 2]); [|vm_compute; reflexivity].
    apply (is_walk_ok _ (_ :: _)). vm_compute. reflexivity.
  - apply (refused_by _ [0; 1; 2; 3]); [|vm_compute; reflexivity].
    apply (is_walk_ok _ (_ :: _)). vm_compute. reflexivity.
  - match goal with |- accepts ?g => exists (infer g 8) end. vm_compute. reflexivity.
Qed.

(** ** C70 Views for reading are not written behind *)

Theorem c70_refuted :
  exists f g, In f dync_api /\ In g dync_api /\
    let p := [New; Call f 0; Call g 0; Write 2; Read 1] in
    accepted p = true /\ ~ unchanged (after [New; Call f 0; Call g 0; Write 2]) 1.
Proof. exact c70_refuted_fact. Qed.
Print Assumptions c70_refuted.
Theorem c70_partial : forall p,
  accepted p = true -> only_calls p linked -> whenever_used p unchanged.
Proof. exact c70_partial_fact. Qed.
Print Assumptions c70_partial.
Example c70_ex : accepted static_ex = true /\ only_calls static_ex linked.
Proof. split; [vm_compute; reflexivity|exact static_ex_linked]. Qed.
(** The same for programs with branches and loops. *)
Theorem c70_flow_partial : forall g path,
  accepts g -> graph_calls g linked -> walk g 0 path ->
  exists p, run_does g path p /\ whenever_used p unchanged.
Proof. exact c70_flow_partial_fact. Qed.
Print Assumptions c70_flow_partial.
Example c70_flow_ex : accepts flow_ex /\ graph_calls flow_ex linked /\
  walk flow_ex 0 [0; 1; 2; 3; 3; 4; 5; 6; 7; 8; 9; 10; 11; 1; 2; 3; 4; 5; 1; 12].
Proof. exact c53_flow_ex. Qed.

(** ** C86 Views for reading can be kept side by side *)

(** The signatures that take their container for reading and give a view for reading. *)
Theorem c86_signatures : forall name,
  In name ["VecCopy::iter"; "VecCopy::as_slice"; "VecCopy::get_ref"; "VecCopy::iter_as";
           "VecCopy::as_slice_as"; "VecCopy::get_ref_as"; "VecDyn::iter"; "VecDyn::as_slice";
           "VecDyn::get"; "VecDyn::iter_as"; "VecDyn::as_slice_as"; "VecDyn::get_ref_as";
           "Value::as_ref"; "SliceCopy::iter"; "SliceCopy::get"; "SliceCopy::split_at";
           "SliceCopy::chunks_exact"; "SliceCopy::subslice"; "SliceCopy::reborrow"; "SliceCopy::clone";
           "Slice::iter"; "Slice::get"; "Slice::split_at"; "Slice::chunks_exact"; "Slice::subslice";
           "Slice::reborrow"; "Slice::clone"; "ValueRef::reborrow"; "ValueRef::clone";
           "SliceCopyMut::get"; "SliceCopyMut::subslice"; "SliceCopyMut::reborrow";
           "SliceCopyMut::chunks_exact"; "SliceMut::get"; "SliceMut::subslice"; "SliceMut::reborrow";
           "SliceMut::chunks_exact"; "ValueMut::reborrow"]%string ->
  exists f, In f dync_api /\ f_name f = name /\ f_passing f = ByRef /\ f_gives f = Shared.
Proof. exact c86_signatures_fact. Qed.
Print Assumptions c86_signatures.
Example c86_signatures_ex : In "VecDyn::iter"%string ["VecCopy::iter"; "VecDyn::iter"]%string.
Proof. right. left. reflexivity. Qed.
(** A program made of such calls and of reads is accepted, however many views it keeps. *)
Theorem c86_readers : forall p, only_looks p -> accepted p = true.
Proof. exact c86_readers_fact. Qed.
Print Assumptions c86_readers.
Example c86_ex :
  only_looks [New; Call (named_fn "VecDyn::iter") 0; Call (named_fn "VecDyn::as_slice") 0;
              Call (named_fn "Slice::split_at") 2; Call (named_fn "Slice::clone") 3; Read 1; Read 4; Read 3;
              Call (named_fn "VecDyn::get_ref_as") 0; Read 5; Read 2; Read 1].
Proof. vm_compute. repeat split; auto. Qed.

Local Close Scope nat_scope.

(** ** C59 Slices cross threads only when their elements may *)

Theorem c59_slices : forall V e h m,
  promised V e -> h = HSlice \/ h = HSliceMut ->
  handle_is V m h = true -> element_is e m.
Proof. exact c59_slices_fact. Qed.
Print Assumptions c59_slices.
Example c59_slices_ex :
  promised (TableType true true true false) (Element True False) /\
  handle_is (TableType true true true false) MSend HSlice = true.
Proof. split; [intros [] H; [exact Logic.I|discriminate]|reflexivity]. Qed.

Theorem c59_derived_slices : forall attrs lib its depth it e impl h,
  hierarchy its -> (List.length its + 8 < depth)%nat ->
  crate_named attrs lib -> In it its ->
  implementor its e impl -> impl (TCustom (it_name it)) ->
  h = HSlice \/ h = HSliceMut ->
  exists out,
    dync_mod depth attrs its = Ret out /\
    let V := table_named (lib_items lib ++ out) lib (vtable_of "" (it_name it)) in
    (handle_is V MSend h = true -> e_send e) /\ (handle_is V MSync h = true -> e_sync e).
Proof. exact c59_derived_slices_fact. Qed.
Print Assumptions c59_derived_slices.
(** [trait Sent: Send {}] *)
Definition sent_it : item_trait :=
  ItemTrait "Sent" false false [BTrait false false (plain_path ["Send"%string])].
Lemma sent_hierarchy : hierarchy [sent_it].
Proof.
  split.
  - repeat constructor; cbn; intuition discriminate.
  - intros it [<-|[]]; vm_compute; intuition discriminate.
  - apply (ranked_acyclic _ (fun t => match t with TCustom _ => 4 | TEq => 1 | _ => 0 end)%nat); [|cbn; lia].
    intros it b t Hit Hb Hn. apply bound_trait_names in Hn.
    destruct Hit as [<-|[]]; cbn in Hb;
      repeat match goal with H : _ \/ _ |- _ => destruct H as [H|H] end; try contradiction;
      subst b; vm_compute in Hn; inversion Hn; subst t; cbn; lia.
Qed.
Lemma sent_inherits : inherits [sent_it] (TCustom "Sent") TSend.
Proof.
  eapply (inherits_bound _ sent_it (BTrait false false (plain_path ["Send"%string])));
    [left; reflexivity|left; reflexivity|].
  apply bound_trait_names. reflexivity.
Qed.
Example c59_derived_slices_ex :
  hierarchy [sent_it] /\ crate_named [] "dync" /\
  implementor [sent_it] (Element True False) (fun t => t <> TSync) /\
  inherits [sent_it] (TCustom "Sent") TSend /\
  exists out, dync_mod 10 [] [sent_it] = Ret out /\
    handle_is (table_named (lib_items "dync" ++ out) "dync" (vtable_of "" "Sent")) MSend HSlice = true.
Proof.
  split; [exact sent_hierarchy|]. split; [split; [right; split; [reflexivity|intros s []]|apply ident_ok_iff; reflexivity]|]. split.
  { split; [|intros _; exact Logic.I|intros H; exfalso; apply H; reflexivity].
    intros a b Ha Hi Hb. subst b.
    assert (forall a b, inherits [sent_it] a b -> b = TSync -> False) as K; [|eapply K; eauto].
    clear. intros a b H. induction H as [it b t Hit Hb Hn| | ]; intros E; subst; try discriminate; auto.
    destruct Hit as [<-|[]]. destruct Hb as [<-|[]]. apply bound_trait_names in Hn. vm_compute in Hn. discriminate. }
  split; [exact sent_inherits|]. eexists. split; [vm_compute; reflexivity|vm_compute; reflexivity].
Qed.

Theorem c59_copy_refuted : forall h, h = HSliceCopy \/ h = HSliceCopyMut ->
  exists V e, promised V e /\ ~ e_send e /\ ~ e_sync e /\
    handle_is V MSend h = true /\ handle_is V MSync h = true.
Proof. exact c59_copy_refuted_fact. Qed.
Print Assumptions c59_copy_refuted.

(** ** C71 An untyped handle crosses threads only if the typed one may *)

Theorem c71_shared_refuted : forall h, h = HSlice \/ h = HValueRef \/ h = HCopyValueRef ->
  exists V e, promised V e /\ handle_is V MSend h = true /\ ~ typed_is (hides h) e MSend.
Proof. exact c71_shared_refuted_fact. Qed.
Print Assumptions c71_shared_refuted.
Theorem c71_owned_partial : forall V e h m,
  promised V e -> hides h <> TyRef \/ m = MSync -> h <> HSliceCopyMut -> h <> HSliceCopy ->
  handle_is V m h = true -> typed_is (hides h) e m.
Proof. exact c71_owned_partial_fact. Qed.
Print Assumptions c71_owned_partial.
Theorem c71_shared_partial : forall V e h m,
  promised V e -> (e_send e -> e_sync e) -> h <> HSliceCopyMut -> h <> HSliceCopy ->
  handle_is V m h = true -> typed_is (hides h) e m.
Proof. exact c71_shared_partial_fact. Qed.
Print Assumptions c71_shared_partial.
Example c71_ex :
  promised (TableType true true true true) (Element True True) /\
  handle_is (TableType true true true true) MSend HSlice = true /\
  handle_is (TableType true true true true) MSync HVecDyn = true.
Proof. split; [intros [] H; exact Logic.I|split; reflexivity]. Qed.

(** ** C72 A container whose table promises Send may be sent *)

Theorem c72_builtin_refuted : forall lib,
  handle_is (table_named (lib_items lib) lib (lib_q lib "SendVTable")) MSend HVecDyn = false /\
  handle_is (table_named (lib_items lib) lib (lib_q lib "SyncVTable")) MSync HVecDyn = false.
Proof. exact c72_builtin_refuted_fact. Qed.
Print Assumptions c72_builtin_refuted.
Theorem c72_vec_copy_refuted : forall V m, handle_is V m HVecCopy = false.
Proof. exact c72_vec_copy_refuted_fact. Qed.
Print Assumptions c72_vec_copy_refuted.
Theorem c72_derived : forall attrs lib its depth it,
  hierarchy its -> (List.length its + 8 < depth)%nat ->
  crate_named attrs lib -> In it its ->
  exists out,
    dync_mod depth attrs its = Ret out /\
    let V := table_named (lib_items lib ++ out) lib (vtable_of "" (it_name it)) in
    forall h, h <> HVecVoid -> h <> HVecCopy ->
      (inherits its (TCustom (it_name it)) TSend -> handle_is V MSend h = true) /\
      (inherits its (TCustom (it_name it)) TSync -> handle_is V MSync h = true).
Proof. exact c72_derived_fact. Qed.
Print Assumptions c72_derived.
Example c72_derived_ex :
  hierarchy [sent_it] /\ crate_named [] "dync" /\
  inherits [sent_it] (TCustom (it_name sent_it)) TSend.
Proof.
  split; [exact sent_hierarchy|]. split; [|exact sent_inherits].
  split; [right; split; [reflexivity|intros s []]|apply ident_ok_iff; reflexivity].
Qed.
