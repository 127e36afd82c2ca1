(** * RoomDynExamples: a full [VecDyn] that cannot grow. *)

From Verif Require Import DynFacts5 RoomFacts RoomDynFacts.
From Verif Require Export RoomExamples DynExamples LoudSpec.

(** The elements are so large that no allocation holds two of them, and own something. *)
Definition vast_env : tenv := fun t =>
  if t =? 0 then quiet 0 1 true else quiet 4611686018427387904 1 false.
Lemma vast_env_ok : types_ok vast_env.
Proof.
  constructor.
  - split; try reflexivity. intros t. unfold vast_env.
    destruct (t =? 0); (split; cbn; [|reflexivity|vm_compute; discriminate]).
    all: exists 0; split; [lia|reflexivity].
  - intros t h v c Hc. unfold is_value. revert Hc. unfold vast_env.
    destruct (t =? 0); cbn; intros E Hz; try discriminate; injection E as <-; reflexivity.
  - intros t h v. unfold vast_env. now destruct (t =? 0).
Qed.

(** A vector of one element and capacity one, of any type that is not zero-sized. *)
Lemma one_live_vec (G : tenv) (HG : wf_tenv G) t v u :
  t_size (G t) <> 0 -> t_size (G t) <= max_alloc (t_align (G t)) ->
  exists (b : vecdyn AllVTable) w, live_vec release G b w /\ live_vec_ref release G b (vr_new G t u) w /\
    contents G b t [v] /\ vc_capacity b = 1.
Proof.
  intros Hz Hm.
  assert (HO : Owns w0 []) by (split; [apply wf_w0|reflexivity]).
  destruct (vec_make_spec G t 1 [v] w0 _ Hz HO) as [(i & w1 & HE & Hok & HO1 & _)|[_ Hbad]].
  2:{ change (lenN [v]) with 1 in Hbad. lia. }
  destruct (vc_from_vec_any G HG t i _ [v] (build_vtable (V := AllVTable) t) w1 _ Hz Hok HO1)
    as (d & w' & HF & HR & HO' & _ & _ & Hcap).
  assert (Hr : dreachable release G (DState [Some (OVec (VecCopy d (build_vtable (V := AllVTable) t)))] w')).
  { exists [DFromVec t 1 [v]]. csplit.
    + constructor; [|constructor]. cbn. constructor; [|constructor]. now intros ?.
    + cbn. auto.
    + unfold drun, run_dstep, d_init. cbn [d_world snd]. unfold vd_from_vec. rewrite HE, HF. reflexivity. }
  exists (VecCopy d (build_vtable t)), w'. csplit.
  - eexists _, 0%nat. csplit; [exact Hr|reflexivity|reflexivity].
  - eexists _, 0%nat, (FromUser t u). csplit; [exact Hr|reflexivity| |exact I|reflexivity|reflexivity|reflexivity].
    cbn. now intros ?.
  - now apply rep_contents.
  - unfold vc_capacity. cbn [vc_data]. apply Hcap. unfold lenN. cbn. lia.
Qed.
Lemma vast_live :
  exists (b : vecdyn AllVTable) w, live_vec release vast_env b w /\
    live_vec_ref release vast_env b (vr_new vast_env 1 8%Z) w /\
    contents vast_env b 1 [7]%Z /\ vc_capacity b = 1.
Proof. apply one_live_vec; [apply vast_env_ok|discriminate|vm_compute; discriminate]. Qed.
Lemma new_ref_is (G : tenv) t x :
  t_size (G t) <> 0 -> ref_is G (vr_new (V := AllVTable) G t x) t x.
Proof.
  intros Hz. split; [reflexivity|]. unfold vr_downcast, vr_new. cbn [vr_type_id vr_bytes].
  rewrite N.eqb_refl, from_bytes_enc by (now intros ?). reflexivity.
Qed.
Lemma vast_ref : ref_is vast_env (vr_new (V := AllVTable) vast_env 1 8%Z) 1 8%Z.
Proof. apply new_ref_is. discriminate. Qed.

(** A vector that lost its contents because a clone panicked while it was pushed. *)
Definition lost_prog : list dstep :=
  [DFromVec ty_moody 4 [1]%Z; OBox ty_moody 13%Z; DPushCloned 0 (FromVal 1)].
Lemma lost_live P : P = dev \/ P = release ->
  exists (b : vecdyn AllVTable) w, live_vec P dyn_env b w /\ lost_vec dyn_env b.
Proof.
  intros HP. set (st := snd (drun P dyn_env lost_prog (d_init (V := AllVTable)))).
  exists (VecCopy vv_default (build_vtable ty_moody)), (d_world st). split.
  - exists st, 0%nat. split; [|split; [|reflexivity]].
    + exists lost_prog. split; [typed_dprog|split; [|reflexivity]].
      destruct HP as [-> | ->]; vm_compute; auto.
    + destruct HP as [-> | ->]; vm_compute; reflexivity.
  - apply (pois_lost dyn_env (ok_layout _ dyn_env_ok)).
Qed.

(** A vector in which one destructor panics. *)
Definition one_panic : list dstep := [DFromVec ty_string 4 [1; 66; 2]%Z].
Lemma one_panic_runs :
  exists (b : vecdyn AllVTable) w, running_vec release edgy_env b w /\
    contents edgy_env b ty_string [1; 66; 2]%Z /\ w_trace w = [].
Proof.
  set (st := snd (drun release edgy_env one_panic (d_init (V := AllVTable)))).
  exists (match dget st 0 with Some (OVec b) => b | _ => dvec_dummy end), (d_world st). split; [|split].
  - exists one_panic, 0%nat. split; [typed_dprog|split; [|split; [|split; [|reflexivity]]]].
    + vm_compute. auto.
    + vm_compute. intuition discriminate.
    + vm_compute. reflexivity.
  - split; [discriminate|vm_compute; reflexivity].
  - vm_compute. reflexivity.
Qed.

(** The same with owned values: one to put in place of an element, one whose destructor panics. *)
Definition loud_prog : list dstep :=
  [DFromVec ty_string 4 [1; 66; 2]%Z; OBox ty_string 7%Z; OBox ty_string 66%Z].
Definition loud_state : dstate (V := AllVTable) := snd (drun release edgy_env loud_prog d_init).
Lemma loud_runs :
  exists (b : vecdyn AllVTable) (v v' : value AllVTable) w,
    running_vec_val release edgy_env b v w /\ running_val release edgy_env v' w /\
    contents edgy_env b ty_string [1; 66; 2]%Z /\ value_is edgy_env v ty_string 7%Z /\
    value_is edgy_env v' ty_string 66%Z /\
    drop_panics edgy_env ty_string (w_trace w) 66%Z = true.
Proof.
  exists (match dget loud_state 0 with Some (OVec b) => b | _ => dvec_dummy end),
         (match dget loud_state 1 with Some (OVal v) => v | _ => dval_dummy end),
         (match dget loud_state 2 with Some (OVal v) => v | _ => dval_dummy end), (d_world loud_state).
  split; [|split; [|split; [|split; [|split]]]].
  - exists loud_prog, 0%nat, 1%nat. split; [typed_dprog|split; [|split; [|split; [|split; [|reflexivity]]]]].
    + vm_compute. auto.
    + vm_compute. intuition discriminate.
    + vm_compute. reflexivity.
    + vm_compute. reflexivity.
  - exists loud_prog, 2%nat. split; [typed_dprog|split; [|split; [|split; [|reflexivity]]]].
    + vm_compute. auto.
    + vm_compute. intuition discriminate.
    + vm_compute. reflexivity.
  - split; [discriminate|vm_compute; reflexivity].
  - repeat split; vm_compute; reflexivity.
  - repeat split; vm_compute; reflexivity.
  - vm_compute. reflexivity.
Qed.
