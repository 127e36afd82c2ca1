(** * ValueProofs: owned values and references to values. *)

From Verif Require Export DynPois.

Section Values.
Context {V : Type} `{HD : HasDrop V} `{HCl : HasClone V} `{HE : HasPartialEq V} `{HH : HasHash V}
        `{HF : HasDebug V} `{HT : VTable V} `{HS : Sized V} {HL : Lawful V}.
Context (P : profile) (G : tenv) (HG : wf_tenv G) (HC : clones_ok G) (HQ : drops_quietly G).

(** ** Representation *)

(** The owned value [v] is the value [x] of type [t]. *)
Record VRep (v : value V) (t : tyid) (x : payload) : Prop := {
  vp_bytes : vl_bytes v = enc G t x;
  vp_type : vl_type_id v = t;
  vp_align : vl_alignment v = t_align (G t);
  vp_table : vl_table v = build_vtable t;
  vp_val : is_value G t x;
  vp_tblk : ptr_ok (vl_tblk v) (fst (table_layout (V := V)));
  vp_store : match vl_store v with Boxed b => ptr_ok b (t_size (G t)) | Inline => t_size (G t) = 8 end
}.

Definition tab_own (b : option N) : list block :=
  owned b (fst (table_layout (V := V))) (snd (table_layout (V := V))).
Definition store_own (s : storage) (sz al : N) : list block :=
  match s with Boxed b => owned b sz al | Inline => [] end.
Definition vl_own (v : value V) : list block :=
  store_own (vl_store v) (lenN (vl_bytes v)) (vl_alignment v) ++ tab_own (vl_tblk v).

Lemma obj_blocks_own v : obj_blocks (OVal v) = vl_own v.
Proof.
  unfold obj_blocks, vl_own, store_own, tab_own, owned.
  f_equal.
  destruct (table_layout (V := V)) as [a b]. reflexivity.
Qed.

Lemma vl_own_rep v t x :
  VRep v t x ->
  vl_own v = store_own (vl_store v) (t_size (G t)) (t_align (G t)) ++ tab_own (vl_tblk v).
Proof.
  intros H. unfold vl_own. rewrite (vp_bytes _ _ _ H), (vp_align _ _ _ H), enc_length. reflexivity.
Qed.

(** What a reference to a value refers to; [None] for a reference into a vector that a panic has
    left empty. *)
Inductive ref_ok (r : vref V) : option tval -> Prop :=
| RF_val t v :
    vr_bytes r = enc G t v -> vr_type_id r = t -> vr_alignment r = t_align (G t) ->
    vt_as_ref (vr_vtable r) = build_vtable t -> is_value G t v -> ref_ok r (Some (t, v))
| RF_pois t0 :
    vr_bytes r = [] -> vr_type_id r = unit_id -> vr_alignment r = 1 ->
    vt_as_ref (vr_vtable r) = build_vtable t0 -> t_size (G t0) <> 0 -> ref_ok r None.

Lemma ref_new t v : is_value G t v -> ref_ok (vr_new G t v) (Some (t, v)).
Proof. intros H. now apply RF_val. Qed.
Lemma ref_value v t x : VRep v t x -> ref_ok (vl_as_ref v) (Some (t, x)).
Proof. intros []. now apply RF_val. Qed.
Lemma ref_elem t v : t_size (G t) <> 0 -> ref_ok (dref G t (build_vtable t) v) (Some (t, v)).
Proof. intros H. apply RF_val; try reflexivity. now apply is_value_sized. Qed.
Lemma ref_elem_pois t0 : t_size (G t0) <> 0 -> ref_ok (ValRef [] unit_id 1 (VRef (build_vtable t0))) None.
Proof. intros H. now apply (RF_pois _ t0). Qed.

(** ** Construction and destruction *)

Lemma table_new_own w l :
  Owns w l ->
  exists tb w', table_new (V := V) w = (tb, w') /\ ptr_ok tb (fst (table_layout (V := V))) /\
    Owns w' (tab_own tb ++ l) /\ w_trace w' = w_trace w.
Proof.
  intros HO. unfold table_new.
  destruct (alloc_owns (fst (table_layout (V := V))) (snd (table_layout (V := V))) w l HO)
    as (b & w' & E & HO' & Hp & Ht).
  exists b, w'. auto.
Qed.

Lemma table_free_own tb w l :
  ptr_ok tb (fst (table_layout (V := V))) -> Owns w (tab_own tb ++ l) ->
  exists w', table_free (V := V) tb w = (Ret tt, w') /\ Owns w' l /\ w_trace w' = w_trace w.
Proof. intros Hp HO. unfold table_free. now apply dealloc_owns. Qed.

Lemma bv_new_rep t x w l :
  is_value G t x -> Owns w l ->
  exists v w', bv_new (V := V) G t x w = (v, w') /\ VRep v t x /\ (exists b, vl_store v = Boxed b) /\
    Owns w' (vl_own v ++ l) /\ w_trace w' = w_trace w.
Proof.
  intros Hx HO. unfold bv_new, box_new.
  destruct (alloc_owns (t_size (G t)) (t_align (G t)) w l HO) as (b & w1 & -> & HO1 & Hp & Ht1).
  cbn [box_into_box_bytes bb_blk bb_bytes tb_blk tb_val].
  destruct (table_new_own w1 _ HO1) as (tb & w2 & -> & Hp2 & HO2 & Ht2).
  eexists _, w2. split; [reflexivity|].
  assert (HV : VRep (Value (Boxed b) (enc G t x) t (t_align (G t)) tb (build_vtable t)) t x)
    by (constructor; auto).
  csplit; [exact HV|eexists; reflexivity| |congruence].
  rewrite (vl_own_rep _ _ _ HV). cbn [vl_store vl_tblk store_own].
  rewrite <- app_assoc. now apply Owns_swap.
Qed.

Lemma sv_try_new_rep t x w l :
  is_value G t x -> Owns w l ->
  if t_size (G t) =? 8 then
    exists v w', sv_try_new (V := V) G t x w = (Some v, w') /\ VRep v t x /\ vl_store v = Inline /\
      Owns w' (vl_own v ++ l) /\ w_trace w' = w_trace w
  else sv_try_new (V := V) G t x w = (None, w).
Proof.
  intros Hx HO. unfold sv_try_new, usize_bytes. destruct (t_size (G t) =? 8) eqn:E; [|reflexivity].
  apply N.eqb_eq in E. destruct (table_new_own w _ HO) as (tb & w2 & -> & Hp2 & HO2 & Ht2).
  eexists _, w2. split; [reflexivity|].
  assert (HV : VRep (Value Inline (enc G t x) t (t_align (G t)) tb (build_vtable t)) t x)
    by (constructor; auto).
  csplit; [exact HV|reflexivity| |congruence].
  rewrite (vl_own_rep _ _ _ HV). cbn [vl_store vl_tblk store_own app]. exact HO2.
Qed.

Lemma drop_as_aligned_own s t w l :
  match s with Boxed b => ptr_ok b (t_size (G t)) | Inline => True end ->
  Owns w (store_own s (t_size (G t)) (t_align (G t)) ++ l) ->
  exists w', drop_as_aligned s (t_size (G t)) (t_align (G t)) w = (Ret tt, w') /\ Owns w' l /\
    w_trace w' = w_trace w.
Proof using HG.
  intros Hp HO. unfold drop_as_aligned. destruct s as [b|]; [|eauto].
  rewrite eval_align_legal by apply (wf_types G HG t).
  assert (E : t_size (G t) / t_align (G t) * t_align (G t) = t_size (G t)).
  { pose proof (chunks_size G HG t) as H. unfold chunks_of in H. lia. }
  rewrite E. now apply dealloc_owns.
Qed.

Lemma vl_drop_rep v t x w l :
  VRep v t x -> Owns w (vl_own v ++ l) ->
  exists w', vl_drop G v w = (Ret tt, w') /\ Owns w' l /\
    w_trace w' = w_trace w ++ drops G t [x].
Proof using HG HQ HL.
  intros H HO. rewrite (vl_own_rep _ _ _ H), <- app_assoc in HO. unfold vl_drop.
  rewrite (vp_table _ _ _ H), law_drop, (vp_bytes _ _ _ H).
  rewrite call_drop_q by first [exact HQ | apply (vp_val _ _ _ H)].
  rewrite enc_length, (vp_align _ _ _ H).
  destruct (drop_as_aligned_own (vl_store v) t (set_tr (w_trace w ++ drops G t [x]) w)
              (tab_own (vl_tblk v) ++ l)) as (w1 & -> & HO1 & Ht1).
  { pose proof (vp_store _ _ _ H). destruct (vl_store v); auto. }
  { apply Owns_set_tr. exact HO. }
  destruct (table_free_own (vl_tblk v) w1 l (vp_tblk _ _ _ H) HO1) as (w2 & -> & HO2 & Ht2).
  exists w2. csplit; [reflexivity|exact HO2|]. rewrite Ht2, Ht1. reflexivity.
Qed.

(** ** Cloning *)

Lemma clone_value_rep t x w l :
  is_value G t x -> Owns w l ->
  match t_clone (G t) (w_trace w) x with
  | Some c =>
      exists v w', clone_value_of G (enc G t x) t (t_align (G t)) (build_vtable t) w = (Ret v, w') /\
        VRep v t c /\ (exists b, vl_store v = Boxed b) /\ Owns w' (vl_own v ++ l) /\
        w_trace w' = w_trace w ++ [EvClone t x c]
  | None => clone_value_of (V := V) G (enc G t x) t (t_align (G t)) (build_vtable t) w = (Panic PUser, w)
  end.
Proof using HL HC.
  intros Hx HO. unfold clone_value_of. rewrite law_clone. unfold call_clone.
  rewrite from_bytes_enc by exact Hx. rewrite clone_val_eq.
  destruct (t_clone (G t) (w_trace w) x) as [c|] eqn:Ec; [|reflexivity].
  unfold box_new.
  destruct (alloc_owns (t_size (G t)) (t_align (G t)) (set_tr (w_trace w ++ [EvClone t x c]) w) l)
    as (b & w1 & -> & HO1 & Hp & Ht1); [now apply Owns_set_tr|].
  cbn [box_into_box_bytes bb_blk bb_bytes tb_blk tb_val].
  destruct (table_new_own w1 _ HO1) as (tb & w2 & -> & Hp2 & HO2 & Ht2).
  eexists _, w2. split; [reflexivity|].
  assert (HV : VRep (Value (Boxed b) (enc G t c) t (t_align (G t)) tb (build_vtable t)) t c).
  { constructor; auto. apply (HC t _ _ _ Ec). }
  csplit; [exact HV|eexists; reflexivity| |].
  - rewrite (vl_own_rep _ _ _ HV). cbn [vl_store vl_tblk store_own].
    rewrite <- app_assoc. now apply Owns_swap.
  - rewrite Ht2, Ht1. reflexivity.
Qed.

Lemma clone_small_rep t x w l :
  is_value G t x -> Owns w l ->
  match t_clone (G t) (w_trace w) x with
  | Some c =>
      if t_size (G t) =? 8 then
        exists v w', clone_small_of G (enc G t x) t (t_align (G t)) (build_vtable t) w = (Ret v, w') /\
          VRep v t c /\ vl_store v = Inline /\ Owns w' (vl_own v ++ l) /\
          w_trace w' = w_trace w ++ [EvClone t x c]
      else
        exists p, clone_small_of (V := V) G (enc G t x) t (t_align (G t)) (build_vtable t) w =
          (Panic p, set_tr (w_trace w ++ [EvClone t x c] ++ drops G t [c]) w)
  | None => clone_small_of (V := V) G (enc G t x) t (t_align (G t)) (build_vtable t) w = (Panic PUser, w)
  end.
Proof using HL HC HQ.
  intros Hx HO. unfold clone_small_of. rewrite law_clone_raw. unfold call_clone_into_raw.
  rewrite from_bytes_enc by exact Hx. rewrite clone_val_eq.
  destruct (t_clone (G t) (w_trace w) x) as [c|] eqn:Ec; [|reflexivity].
  unfold bytes_copy_from_slice. rewrite enc_length.
  change (lenN (repeat (Byte 0) (N.to_nat usize_bytes))) with 8. rewrite (N.eqb_sym 8).
  destruct (t_size (G t) =? 8) eqn:E.
  - apply N.eqb_eq in E.
    destruct (table_new_own (set_tr (w_trace w ++ [EvClone t x c]) w) l) as (tb & w2 & -> & Hp2 & HO2 & Ht2).
    { now apply Owns_set_tr. }
    eexists _, w2. split; [reflexivity|].
    assert (HV : VRep (Value Inline (enc G t c) t (t_align (G t)) tb (build_vtable t)) t c).
    { constructor; auto. apply (HC t _ _ _ Ec). }
    csplit; [exact HV|reflexivity| |exact Ht2].
    rewrite (vl_own_rep _ _ _ HV). cbn [vl_store vl_tblk store_own app]. exact HO2.
  - rewrite drop_val_q by exact HQ. rewrite set_tr_trace, set_tr_set, <- app_assoc.
    cbn [unwind retype]. eexists. reflexivity.
Qed.

Lemma clone_of_nil t0 ty al w :
  t_size (G t0) <> 0 ->
  clone_value_of (V := V) G [] ty al (build_vtable t0) w = (Panic PAssert, w) /\
  clone_small_of (V := V) G [] ty al (build_vtable t0) w = (Panic PAssert, w).
Proof using HL.
  intros Hz. unfold clone_value_of, clone_small_of. rewrite law_clone, law_clone_raw.
  unfold call_clone, call_clone_into_raw. rewrite from_bytes_nil by exact Hz. split; reflexivity.
Qed.

(** ** Downcasting *)

Lemma bv_downcast_rep v t x b t' w l :
  VRep v t x -> vl_store v = Boxed b -> Owns w (vl_own v ++ l) ->
  exists w', bv_downcast G t' v w =
      (Ret (if t =? t' then Some (TBoxed b x) else None), w') /\
    Owns w' (owned b (t_size (G t)) (t_align (G t)) ++ l) /\ w_trace w' = w_trace w.
Proof.
  intros H Hb HO. rewrite (vl_own_rep _ _ _ H), Hb in HO. cbn [store_own] in HO.
  rewrite <- app_assoc in HO. apply Owns_swap in HO.
  destruct (table_free_own (vl_tblk v) w _ (vp_tblk _ _ _ H) HO) as (w' & HE' & HO' & Ht).
  unfold bv_downcast. rewrite Hb, (vp_type _ _ _ H), (vp_bytes _ _ _ H).
  destruct (t =? t') eqn:E.
  - apply N.eqb_eq in E as <-. unfold box_from_box_bytes. cbn [bb_bytes bb_blk].
    rewrite read_val_enc by apply (vp_val _ _ _ H). cbn [obind]. rewrite HE'. cbn [obind]. eauto.
  - rewrite HE'. cbn [obind]. eauto.
Qed.

Lemma sv_downcast_rep v t x t' w l :
  VRep v t x -> vl_store v = Inline -> Owns w (vl_own v ++ l) ->
  exists w', sv_downcast G t' v w = (Ret (if t =? t' then Some x else None), w') /\
    Owns w' l /\ w_trace w' = w_trace w.
Proof.
  intros H Hb HO. rewrite (vl_own_rep _ _ _ H), Hb in HO. cbn [store_own app] in HO.
  destruct (table_free_own (vl_tblk v) w _ (vp_tblk _ _ _ H) HO) as (w' & HE' & HO' & Ht).
  pose proof (vp_store _ _ _ H) as H8. rewrite Hb in H8.
  unfold sv_downcast. rewrite (vp_type _ _ _ H), (vp_bytes _ _ _ H).
  destruct (t =? t') eqn:E.
  - apply N.eqb_eq in E as <-. rewrite H8. change (8 =? usize_bytes) with true. cbn iota.
    rewrite read_val_enc by apply (vp_val _ _ _ H). cbn [obind]. rewrite HE'. cbn [obind]. eauto.
  - rewrite HE'. cbn [obind]. eauto.
Qed.

Lemma vr_downcast_rep v t x : VRep v t x -> vr_downcast G (vl_type_id v) (vl_as_ref v) = Ret (Some x).
Proof.
  intros H. unfold vr_downcast, vl_as_ref. cbn [vr_type_id vr_bytes]. rewrite N.eqb_refl.
  rewrite (vp_bytes _ _ _ H), (vp_type _ _ _ H), from_bytes_enc by apply (vp_val _ _ _ H). reflexivity.
Qed.

(** ** Comparing, hashing, formatting *)

Lemma vl_eq_rep v t x v' t' x' :
  VRep v t x -> VRep v' t' x' -> vl_eq G v v' = Ret ((t =? t') && t_eq (G t) x x').
Proof using HL.
  intros H H'. unfold vl_eq. rewrite (vp_type _ _ _ H), (vp_type _ _ _ H').
  destruct (t =? t') eqn:E; [|reflexivity]. apply N.eqb_eq in E as <-. cbn [negb andb].
  rewrite (vp_table _ _ _ H), law_eq. unfold call_eq.
  rewrite (vp_bytes _ _ _ H), (vp_bytes _ _ _ H').
  rewrite !from_bytes_enc by first [apply (vp_val _ _ _ H) | apply (vp_val _ _ _ H')]. reflexivity.
Qed.
Lemma vl_hash_rep v t x : VRep v t x -> vl_hash G v = Ret (t_hash (G t) x).
Proof using HL.
  intros H. unfold vl_hash. rewrite (vp_table _ _ _ H), law_hash. unfold call_hash.
  rewrite (vp_bytes _ _ _ H), from_bytes_enc by apply (vp_val _ _ _ H). reflexivity.
Qed.
Lemma vl_fmt_rep v t x : VRep v t x -> vl_fmt G v = Ret (t_fmt (G t) x).
Proof using HL.
  intros H. unfold vl_fmt. rewrite (vp_table _ _ _ H), law_fmt. unfold call_fmt.
  rewrite (vp_bytes _ _ _ H), from_bytes_enc by apply (vp_val _ _ _ H). reflexivity.
Qed.

(** ** Mutable references *)

(** The mutable reference [m] refers to the value [x] of type [t]. *)
Definition mut_ok (m : vmut V) (t : tyid) (x : payload) : Prop :=
  vm_bytes m = enc G t x /\ vm_type_id m = t /\ vt_as_ref (vm_vtable m) = build_vtable t /\
  is_value G t x.

Lemma mut_value v t x : VRep v t x -> mut_ok (vl_as_mut v) t x.
Proof. intros []. repeat split; assumption. Qed.

Lemma vl_with_bytes_rep v t x y :
  VRep v t x -> is_value G t y -> VRep (vl_with_bytes v (enc G t y)) t y.
Proof. intros [] Hy. now constructor. Qed.
Lemma vl_with_bytes_own v t x y :
  VRep v t x -> vl_own (vl_with_bytes v (enc G t y)) = vl_own v.
Proof.
  intros H. unfold vl_own. cbn [vl_store vl_bytes vl_alignment vl_tblk vl_with_bytes].
  rewrite (vp_bytes _ _ _ H), !enc_length. reflexivity.
Qed.
Lemma vl_with_bytes_same v t x : VRep v t x -> vl_with_bytes v (enc G t x) = v.
Proof. intros H. destruct v. pose proof (vp_bytes _ _ _ H) as E. cbn in E. subst. reflexivity. Qed.

Lemma vm_swap_ok m t x m' t' x' :
  mut_ok m t x -> mut_ok m' t' x' ->
  exists m1 m2, vm_swap m m' = (Ret tt, m1, m2) /\
    vm_bytes m1 = (if t =? t' then enc G t x' else enc G t x) /\
    vm_bytes m2 = (if t =? t' then enc G t' x else enc G t' x').
Proof.
  intros (Hb & Ht & _ & _) (Hb' & Ht' & _ & _). unfold vm_swap. rewrite Ht, Ht'.
  destruct (t =? t') eqn:E.
  - apply N.eqb_eq in E as <-. rewrite Hb, Hb', !enc_length, N.eqb_refl. eauto.
  - rewrite <- Hb, <- Hb'. eauto.
Qed.

Lemma vm_assign_ok m t x v t' x' w l :
  mut_ok m t x -> VRep v t' x' -> Owns w (vl_own v ++ l) ->
  exists m' w', vm_assign G m v w = (Ret tt, m', w') /\
    vm_bytes m' = (if t =? t' then enc G t x' else enc G t x) /\ Owns w' l /\
    w_trace w' = w_trace w ++ (if t =? t' then drops G t [x] else drops G t' [x']).
Proof using HG HQ HL.
  intros Hm HV HO. unfold vm_assign.
  destruct (vm_swap_ok m t x (vl_as_mut v) t' x' Hm (mut_value _ _ _ HV)) as (m1 & m2 & -> & H1 & H2).
  fold (vl_with_bytes v (vm_bytes m2)). rewrite H2.
  destruct (t =? t') eqn:E.
  - apply N.eqb_eq in E as <-.
    destruct (vl_drop_rep (vl_with_bytes v (enc G t x)) t x w l) as (w' & -> & HO' & Ht).
    { apply (vl_with_bytes_rep v t x' x HV). apply Hm. }
    { rewrite (vl_with_bytes_own v t x' x HV). exact HO. }
    eauto 8.
  - rewrite (vl_with_bytes_same v t' x' HV).
    destruct (vl_drop_rep v t' x' w l HV HO) as (w' & -> & HO' & Ht). eauto 8.
Qed.

Lemma vm_clone_from_ok m t x r t' y w :
  mut_ok m t x -> ref_ok r (Some (t', y)) ->
  if t =? t' then
    match t_clone (G t) (w_trace w) y with
    | Some c =>
        exists m', vm_clone_from_other G m r w =
            (Ret (inl tt), m', set_tr (w_trace w ++ [EvClone t y c] ++ drops G t [x]) w) /\
          vm_bytes m' = enc G t c
    | None => vm_clone_from_other G m r w = (Panic PUser, m, w)
    end
  else exists e, vm_clone_from_other G m r w = (Ret (inr e), m, w).
Proof using HL HQ.
  intros (Hb & Ht & Hv & Hx) Hr. inversion Hr as [t1 v1 Rb Rt Ra Rv Ry E|]; subst t1 v1.
  unfold vm_clone_from_other. rewrite Ht, Rt. destruct (t =? t') eqn:Et; [|eauto].
  apply N.eqb_eq in Et as <-. rewrite Hv, law_clone_from, Hb, Rb.
  rewrite call_clone_from_eq by first [exact HQ | assumption].
  destruct (t_clone (G t) (w_trace w) y) as [c|]; cbn [obind].
  - eexists. split; reflexivity.
  - unfold vm_with_bytes. rewrite <- Hb. destruct m; reflexivity.
Qed.

(** A reference into a vector that a panic left empty never changes anything. *)
Lemma vm_clone_from_pois_ref m t x r w :
  mut_ok m t x -> ref_ok r None ->
  exists o m' w', vm_clone_from_other G m r w = (o, m', w') /\ safe o /\ vm_bytes m' = vm_bytes m /\
    (forall l, Owns w l -> Owns w' l) /\ bal G [] [] (w_trace w) [] [] [] (w_trace w') /\
    extends [] (w_trace w) (w_trace w').
Proof using HG HL HQ.
  intros (Hb & Ht & Hv & Hx) Hr. inversion Hr as [|t0 Rb Rt Ra Rv Hz].
  unfold vm_clone_from_other. rewrite Ht, Rt. destruct (t =? unit_id) eqn:Et.
  - apply N.eqb_eq in Et. subst t. rewrite Et in *. rewrite Hv, law_clone_from, Hb, Rb.
    assert (E0 : @nil mbyte = enc G unit_id 0%Z) by (rewrite enc_nil; [reflexivity|apply (wf_unit_size G HG)]).
    rewrite E0. rewrite call_clone_from_eq; [|exact HQ|now intros _|exact Hx].
    destruct (t_clone (G unit_id) (w_trace w) 0%Z) as [c|]; cbn [obind].
    + eexists _, _, _. split; [reflexivity|]. csplit.
      * exact I.
      * cbn [vm_bytes vm_with_bytes]. rewrite !enc_nil by apply (wf_unit_size G HG). reflexivity.
      * intros l Hl. apply Owns_set_tr. exact Hl.
      * intros q. rewrite set_tr_trace, unit_drops, app_nil_r by exact HG. cnts q.
        rewrite unit_owned, cnt_nil by exact HG. lia.
      * rewrite set_tr_trace, unit_drops, app_nil_r by exact HG.
        eapply extends_cons. apply extends_refl.
    + eexists _, _, _. split; [reflexivity|]. csplit; auto; [exact I|balq|apply extends_refl].
  - eexists _, _, _. split; [reflexivity|]. csplit; auto; [exact I|balq|apply extends_refl].
Qed.

Lemma vm_clone_from_pois t0 r rv w :
  t_size (G t0) <> 0 -> ref_ok r rv ->
  exists o m', vm_clone_from_other G (ValMut [] unit_id 1 (VRef (build_vtable t0))) r w = (o, m', w) /\
    safe o /\ vm_bytes m' = [].
Proof using HG HL HQ.
  intros Hz Hr. unfold vm_clone_from_other. cbn [vm_type_id vm_vtable vt_as_ref vm_bytes].
  destruct (unit_id =? vr_type_id r) eqn:E; [|eexists _, _; csplit; [reflexivity|exact I|reflexivity]].
  apply N.eqb_eq in E. rewrite law_clone_from. unfold call_clone_from.
  assert (Hp : exists p, from_bytes G t0 (vr_bytes r) = Panic p).
  { exists PAssert. inversion Hr as [t v Rb Rt Ra Rv Hv|t1 Rb Rt Ra Rv Hz1].
    - rewrite Rb. assert (t = unit_id) as -> by congruence.
      rewrite enc_nil by apply (wf_unit_size G HG). now apply from_bytes_nil.
    - rewrite Rb. now apply from_bytes_nil. }
  destruct Hp as [p ->]. eexists _, _. csplit; [reflexivity|exact I|reflexivity].
Qed.

End Values.
