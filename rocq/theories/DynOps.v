(** * DynOps: operations on [VecDyn]s that involve references, owned values or two vectors, and
    construction, cloning, dropping and conversion of whole vectors. *)

From Verif Require Export ValueProofs.

Section Ops.
Context {V : Type} `{HD : HasDrop V} `{HCl : HasClone V} `{HE : HasPartialEq V} `{HH : HasHash V}
        `{HF : HasDebug V} `{HT : VTable V} `{HS : Sized V} {HL : Lawful V}.
Context (P : profile) (G : tenv) (HG : wf_tenv G) (HC : clones_ok G) (HQ : drops_quietly G).

(** As [dpois] for one frame [l], which need not be the one before the call. *)
Inductive dpois_at {A} (vt : V) (w : world) (l : list block) (gives : list tval)
  : outcome A * vecdyn V * world -> Prop :=
| DPA o n c w' : safe o -> Owns w' l ->
    bal G [] gives (w_trace w) [] [] [] (w_trace w') -> extends gives (w_trace w) (w_trace w') ->
    dpois_at vt w l gives (o, VecCopy (pois_vec n c) vt, w').

Lemma dpois_frame {A} (vt : V) w l gives (r : outcome A * vecdyn V * world) :
  dpois G vt w gives r -> Owns w l -> dpois_at vt w l gives r.
Proof. intros H HO. inversion H as [o n c w' Hs Ho Hb Hx E]. apply DPA; auto. Qed.

Lemma dpois_at_full {A B} (k : A -> B) (vt : V) w l gives o b w' :
  dpois_at vt w l gives (o, b, w') -> dpois_at vt w l gives (let! a := o in Ret (k a), b, w').
Proof.
  intros H. inversion H as [o' n c w'' Hs Ho Hb Hx E]; subst. apply DPA; auto.
  apply safe_bind; [exact Hs|]. intros a. exact I.
Qed.

Lemma loc_map {A B} (k : A -> B) t xs (vt : V) w l gives spec may o b w' :
  loc_post G t xs vt w l gives spec may (o, b, w') ->
  loc_post G t xs vt w l gives
    (match spec with Some (a, ys, tr) => Some (k a, ys, tr) | None => None end) may
    (let! a := o in Ret (k a), b, w').
Proof.
  intros H. inversion H; subst; cbn [obind].
  - eapply LP_ret; eauto.
  - eapply LP_panic; eauto.
Qed.

(** ** push_cloned *)

Lemma enc_inj t a b : t_size (G t) <> 0 -> enc G t a = enc G t b -> a = b.
Proof.
  intros Hz E. assert (H : encs G t [a] = encs G t [b]) by (rewrite !encs_one; exact E).
  apply encs_inj in H; [now inversion H|exact Hz].
Qed.

Lemma push_cloned_loc t d xs r t' y w l :
  Rep G t d xs -> Owns w (vv_own d ++ l) -> ref_ok G r (Some (t', y)) ->
  loc_post G t xs (build_vtable t) w l []
    (if t =? t' then
       match t_clone (G t') (w_trace w) y with
       | Some c => Some (true, xs ++ [c], w_trace w ++ [EvClone t' y c])
       | None => None
       end
     else Some (false, xs, w_trace w))
    (fun left tr => t = t' /\ left = None /\
       ((t_clone (G t') (w_trace w) y = None \/ no_room G t (lenN xs) (lenN xs + 1)) /\
          tr = w_trace w \/
        exists c, t_clone (G t') (w_trace w) y = Some c /\
          odd_growth_to G t (lenN xs) (lenN xs + 1) /\ tr = w_trace w ++ [EvClone t' y c]))
    (vd_push_cloned P G r (VecCopy d (build_vtable t)) w).
Proof using HG HC HL.
  intros HR HO Hr. inversion Hr as [t1 v1 Rb Rt Ra Rv Ry E|]; subst t1 v1.
  unfold vd_push_cloned, vd_element_type_id, vc_element_type_id. cbn [vc_data vc_vtable].
  rewrite (rep_type G _ _ _ HR), Rt. destruct (t =? t') eqn:Et; [|now apply loc_ret_same].
  apply N.eqb_eq in Et as <-. rewrite Rb, law_clone_raw. unfold on_data. cbn [vc_data vc_vtable].
  pose proof (rep_sized _ _ _ _ HR) as Hz.
  assert (Heq : forall dst w1, lenN dst = t_size (G t) ->
            call_clone_into_raw G (CloneRawOf t) (enc G t y) dst w1 =
            match t_clone (G t) (w_trace w1) y with
            | Some c => (Ret (enc G t c), set_tr (w_trace w1 ++ [EvClone t y c]) w1)
            | None => (Panic PUser, w1)
            end).
  { intros dst w1 Hd. now apply call_clone_into_raw_eq. }
  assert (Hz0 : lenN (repeat (Byte 0) (N.to_nat (t_size (G t)))) = t_size (G t)) by apply lenN_zeros.
  pose proof (vv_resize_with_one P G HG t d xs
    (fun uninit w => call_clone_into_raw G (CloneRawOf t) (enc G t y) uninit w) w l HR HO) as HX.
  destruct HX as [w1 v d' w' Ht1 Hi HR' _ _ _ HO' _|w1 p w2 w' Ht1 Hi HO' Ht'
                 |w' Hlt Hcap HO' Ht'|w1 v w' i Hbad Ht1 Hi HO'].
  - intros bs w1 Hb. rewrite Heq by exact Hb. destruct (t_clone (G t) (w_trace w1) y) as [c|].
    + left. eexists _, _. split; [reflexivity|]. intros l'. symmetry. apply Owns_set_tr.
    + right. eexists _, _. split; [reflexivity|]. tauto.
  - rewrite Heq, Ht1 in Hi by exact Hz0.
    destruct (t_clone (G t) (w_trace w) y) as [c|] eqn:Ec; [|discriminate].
    injection Hi as He Hw. apply enc_inj in He; [|exact Hz]. subst v w'. cbn [obind].
    eapply LP_ret; [rewrite set_tr_trace; reflexivity|exact HR'|exact HO'|].
    intros q. rewrite set_tr_trace. cnts q. lia.
  - rewrite Heq, Ht1 in Hi by exact Hz0.
    destruct (t_clone (G t) (w_trace w) y) as [c|] eqn:Ec; [discriminate|].
    injection Hi as <- <-. cbn [obind].
    apply (LP_panic G t xs (build_vtable t) w l [] _ _ PUser vv_default w' None [] (owned_vals G t xs)).
    + apply VL_pois. apply vv_default_poisoned.
    + rewrite Ht', Ht1. cbv beta. csplit; auto.
    + exact HO'.
    + intros q. rewrite Ht', Ht1. cnts q. lia.
  - cbn [obind].
    apply (LP_panic G t xs (build_vtable t) w l [] _ _ PCapacity vv_default w' None [] (owned_vals G t xs)).
    + apply VL_pois. apply vv_default_poisoned.
    + rewrite Ht'. csplit; try reflexivity. left. split; [|reflexivity]. right.
      eapply no_room_of; [exact HG|exact HR| | |exact Hlt|exact Hcap].
      * pose proof (wf_align_pos G t HG). lia.
      * apply align_le_size; assumption.
    + exact HO'.
    + intros q. rewrite Ht'. cnts q. lia.
  - rewrite Heq, Ht1 in Hi by exact Hz0.
    destruct (t_clone (G t) (w_trace w) y) as [c|] eqn:Ec; [|discriminate].
    injection Hi as He Hw. apply enc_inj in He; [|exact Hz]. subst v w'. cbn [obind].
    apply (LP_panic G t xs (build_vtable t) w l [] _ _ PAssert vv_default _ None [(i, (8, 1))]
             (owned_vals G t (xs ++ [c]))).
    + apply VL_pois. apply vv_default_poisoned.
    + rewrite set_tr_trace. csplit; try reflexivity. right. exists c. csplit; auto.
      eapply odd_of; eassumption.
    + exact HO'.
    + intros q. rewrite set_tr_trace. cnts q. lia.
Qed.

Lemma push_cloned_loc_pois t d xs r w l :
  Rep G t d xs -> Owns w (vv_own d ++ l) -> ref_ok G r None ->
  loc_post G t xs (build_vtable t) w l [] (Some (false, xs, w_trace w)) (fun _ _ => False)
    (vd_push_cloned P G r (VecCopy d (build_vtable t)) w).
Proof using HG.
  intros HR HO Hr. inversion Hr as [|t0 Rb Rt Ra Rv Hz].
  unfold vd_push_cloned, vd_element_type_id, vc_element_type_id. cbn [vc_data vc_vtable].
  rewrite (rep_type G _ _ _ HR), Rt. destruct (t =? unit_id) eqn:Et; [|now apply loc_ret_same].
  apply N.eqb_eq in Et. now elim (rep_not_unit G HG _ _ _ HR).
Qed.

(** A reference whose type is [()] has no bytes. *)
Lemma ref_unit_bytes r rv : ref_ok G r rv -> vr_type_id r = unit_id -> vr_bytes r = [].
Proof using HG.
  intros Hr E. inversion Hr as [t v Rb Rt Ra Rv Hv|t1 Rb Rt Ra Rv Hz1]; [|exact Rb].
  rewrite Rb. assert (t = unit_id) as -> by congruence. apply enc_nil. apply (wf_unit_size G HG).
Qed.

Lemma push_cloned_pois t0 n k r rv w :
  t_size (G t0) <> 0 -> ref_ok G r rv ->
  dpois G (build_vtable t0) w [] (vd_push_cloned P G r (VecCopy (pois_vec n k) (build_vtable t0)) w).
Proof using HG HL.
  intros Hz Hr. unfold vd_push_cloned, vd_element_type_id, vc_element_type_id.
  cbn [vc_data vc_vtable]. change (e_type_id (vv_elem (pois_vec n k))) with unit_id.
  destruct (unit_id =? vr_type_id r) eqn:E; [|apply dpois_same; exact I].
  apply N.eqb_eq in E. rewrite (ref_unit_bytes r rv Hr) by congruence. rewrite law_clone_raw.
  unfold on_data. cbn [vc_data vc_vtable].
  assert (H : exists p, vv_resize_with P (vv_len (pois_vec n k) + 1)
      (fun uninit w => call_clone_into_raw G (CloneRawOf t0) [] uninit w) (pois_vec n k) w =
      (Panic p, vv_default, w)).
  { unfold vv_resize_with. apply dispatch_pois; [reflexivity|].
    cbn [e_size vv_elem pois_vec]. unfold with_val. rewrite umul_0_r.
    unfold v_resize_zeroed. cbn [v_len].
    change (0 <=? 0) with true. cbn iota. cbn. rewrite ?from_bytes_nil by exact Hz. cbn.
    eexists. split; [reflexivity|]. exact I. }
  destruct H as [p ->]. cbn [obind]. apply dpois_dead.
Qed.

(** ** get_mut(i).clone_from_other *)

Lemma with_vals_id t d xs : Rep G t d xs -> with_vals G t d xs = d.
Proof. intros H. unfold with_vals. rewrite <- (rep_bytes _ _ _ _ H). now destruct d. Qed.

Lemma mut_elem t v : t_size (G t) <> 0 ->
  mut_ok G (ValMut (enc G t v) t (t_align (G t)) (VRef (build_vtable t))) t v.
Proof. intros H. repeat split; try reflexivity. now apply is_value_sized. Qed.

Lemma list_set_nthN {A} (xs : list A) i x : nthN xs i = Some x -> list_set xs (N.to_nat i) x = xs.
Proof. intros H. apply list_set_same. exact H. Qed.

Definition cf_obs (a : unit + mismatch) : bool := match a with inl _ => true | inr _ => false end.

Lemma clone_from_loc t d xs i r t' y w l :
  Rep G t d xs -> Owns w (vv_own d ++ l) -> ref_ok G r (Some (t', y)) -> fits P (i + 1) (t_size (G t)) ->
  loc_post G t xs (build_vtable t) w l []
    (match nthN xs i with
     | Some old =>
         if t =? t' then
           match t_clone (G t') (w_trace w) y with
           | Some c => Some (true, list_set xs (N.to_nat i) c,
                             w_trace w ++ [EvClone t' y c] ++ drops G t' [old])
           | None => None
           end
         else Some (false, xs, w_trace w)
     | None => None
     end)
    (fun left tr => left = Some xs /\ tr = w_trace w /\
       (nthN xs i = None \/ t = t' /\ t_clone (G t') (w_trace w) y = None))
    (let '(o, b, w') := vd_clone_from_other P G i r (VecCopy d (build_vtable t)) w in
     (let! a := o in Ret (cf_obs a), b, w')).
Proof using HG HQ HL.
  intros HR HO Hr Hfit. unfold vd_clone_from_other, vd_with_mut.
  pose proof (rep_sized _ _ _ _ HR) as Hz.
  destruct (nthN xs i) as [old|] eqn:Ei.
  2:{ destruct (vd_get_out P G HG t d (build_vtable t) xs i HR Ei Hfit) as (p & _ & ->).
      cbn [retype obind]. apply loc_panic_same; [assumption|assumption|]; auto 10. }
  pose proof (nthN_some _ _ _ Ei) as Hlt.
  rewrite (vd_get_mut_rep P G HG t d (build_vtable t) xs i old HR Ei). cbn [vc_data vc_vtable].
  pose proof (vm_clone_from_ok G HQ _ t old r t' y w (mut_elem t old Hz) Hr) as HX.
  destruct (t =? t') eqn:Et.
  - apply N.eqb_eq in Et as <-. destruct (t_clone (G t) (w_trace w) y) as [c|] eqn:Ec.
    + destruct HX as (m' & -> & Hb). rewrite Hb. cbn [obind cf_obs].
      rewrite (splice_one_with_vals G t d xs i c HR Hlt).
      eapply LP_ret.
      * rewrite set_tr_trace. reflexivity.
      * apply (with_vals_rep G t d xs _ HR). apply lenN_list_set.
      * rewrite with_vals_own. apply Owns_set_tr. exact HO.
      * intros q. rewrite set_tr_trace.
        pose proof (cnt_perm q _ _ (owned_vals_list_set G t xs _ c old Ei)) as Hp.
        revert Hp. cnts q. lia.
    + rewrite HX. cbn [obind vm_bytes]. rewrite (splice_one_with_vals G t d xs i old HR Hlt).
      rewrite (list_set_nthN xs i old Ei), (with_vals_id t d xs HR). apply loc_panic_same; [assumption|assumption|]; auto 10.
  - destruct HX as [e ->]. cbn [obind vm_bytes cf_obs].
    rewrite (splice_one_with_vals G t d xs i old HR Hlt).
    rewrite (list_set_nthN xs i old Ei), (with_vals_id t d xs HR). now apply loc_ret_same.
Qed.

Lemma clone_from_loc_pois t d xs i r w l :
  Rep G t d xs -> Owns w (vv_own d ++ l) -> ref_ok G r None -> fits P (i + 1) (t_size (G t)) ->
  loc_post G t xs (build_vtable t) w l []
    (match nthN xs i with Some _ => Some (false, xs, w_trace w) | None => None end)
    (fun left tr => left = Some xs /\ tr = w_trace w)
    (let '(o, b, w') := vd_clone_from_other P G i r (VecCopy d (build_vtable t)) w in
     (let! a := o in Ret (cf_obs a), b, w')).
Proof using HG.
  intros HR HO Hr Hfit. unfold vd_clone_from_other, vd_with_mut.
  destruct (nthN xs i) as [old|] eqn:Ei.
  2:{ destruct (vd_get_out P G HG t d (build_vtable t) xs i HR Ei Hfit) as (p & _ & ->).
      cbn [retype obind]. apply loc_panic_same; [assumption|assumption|]; auto 10. }
  pose proof (nthN_some _ _ _ Ei) as Hlt.
  rewrite (vd_get_mut_rep P G HG t d (build_vtable t) xs i old HR Ei). cbn [vc_data vc_vtable].
  inversion Hr as [|t0 Rb Rt Ra Rv Hz]. unfold vm_clone_from_other. cbn [vm_type_id]. rewrite Rt.
  destruct (t =? unit_id) eqn:Et.
  { apply N.eqb_eq in Et. now elim (rep_not_unit G HG _ _ _ HR). }
  cbn [obind cf_obs vm_bytes]. rewrite (splice_one_with_vals G t d xs i old HR Hlt).
  rewrite (list_set_nthN xs i old Ei), (with_vals_id t d xs HR). now apply loc_ret_same.
Qed.

Lemma splice_pois n k : vv_splice 0 [] (pois_vec n k) = pois_vec n k.
Proof. reflexivity. Qed.

Lemma clone_from_pois t0 n k i r rv w :
  t_size (G t0) <> 0 -> ref_ok G r rv ->
  dpois G (build_vtable t0) w []
    (let '(o, b, w') := vd_clone_from_other P G i r (VecCopy (pois_vec n k) (build_vtable t0)) w in
     (let! a := o in Ret (cf_obs a), b, w')).
Proof using HG HQ HL.
  intros Hz Hr. unfold vd_clone_from_other, vd_with_mut.
  destruct (vd_get_mut_pois P i n k (build_vtable t0)) as [[p ->]| ->].
  - cbn [retype obind]. apply dpois_same. exact I.
  - destruct (vm_clone_from_pois G HG HQ t0 r rv w Hz Hr) as (o & m' & -> & Hs & Hb).
    cbn [vc_data vc_vtable]. rewrite Hb, splice_pois. apply dpois_same.
    apply safe_bind; [exact Hs|]. intros a. exact I.
Qed.

(** ** clone_from_other on every item of iter_mut *)

Definition elem_mut (t : tyid) (v : payload) : vmut V :=
  ValMut (enc G t v) t (t_align (G t)) (VRef (build_vtable t)).

Lemma clone_from_each_seq t xs r t' y w :
  t_size (G t) <> 0 -> ref_ok G r (Some (t', y)) ->
  clone_from_each G (map (elem_mut t) xs) r w =
  if t =? t' then
    let '(ys, ok, tr) := replace_seq G t (repeat y (List.length xs)) xs (w_trace w) in
    (if ok then Ret tt else Panic PUser, map (enc G t) ys, set_tr tr w)
  else (Ret tt, map (enc G t) xs, w).
Proof using HQ HL.
  intros Hz Hr. revert w. induction xs as [|x xs IH]; intros w.
  - cbn. destruct (t =? t'); [|reflexivity]. now rewrite set_tr_same.
  - cbn [map clone_from_each List.length repeat replace_seq].
    pose proof (vm_clone_from_ok G HQ _ t x r t' y w (mut_elem t x Hz) Hr) as HX.
    fold (elem_mut t x) in HX.
    destruct (t =? t') eqn:Et.
    + apply N.eqb_eq in Et as <-. destruct (t_clone (G t) (w_trace w) y) as [c|].
      * destruct HX as (m' & -> & Hb). rewrite Hb, IH, set_tr_trace.
        destruct (replace_seq G t (repeat y (List.length xs)) xs
                    (w_trace w ++ [EvClone t y c] ++ drops G t [x])) as [[ys ok] tr].
        reflexivity.
      * rewrite HX. cbn [retype vm_bytes elem_mut map]. rewrite map_map. cbn [vm_bytes elem_mut].
        rewrite set_tr_same. reflexivity.
    + destruct HX as [e ->]. rewrite IH. reflexivity.
Qed.

Lemma clone_from_each_pois t xs r w :
  t <> unit_id -> ref_ok G r None ->
  clone_from_each G (map (elem_mut t) xs) r w = (Ret tt, map (enc G t) xs, w).
Proof.
  intros Hu Hr. inversion Hr as [|t0 Rb Rt Ra Rv Hz]. induction xs as [|x xs IH]; [reflexivity|].
  cbn [map clone_from_each]. unfold vm_clone_from_other at 1. cbn [vm_type_id elem_mut].
  rewrite Rt. apply N.eqb_neq in Hu. rewrite Hu, IH. reflexivity.
Qed.

Lemma iter_mut_clone_loc t d xs r t' y w l :
  Rep G t d xs -> Owns w (vv_own d ++ l) -> ref_ok G r (Some (t', y)) ->
  loc_post G t xs (build_vtable t) w l []
    (if t =? t' then
       let '(ys, ok, tr) := replace_seq G t' (repeat y (List.length xs)) xs (w_trace w) in
       if ok then Some (tt, ys, tr) else None
     else Some (tt, xs, w_trace w))
    (fun left tr => t = t' /\
       exists ys, replace_seq G t' (repeat y (List.length xs)) xs (w_trace w) = (ys, false, tr) /\
         left = Some ys)
    (vd_iter_mut_clone P G r (VecCopy d (build_vtable t)) w).
Proof using HG HQ HL.
  intros HR HO Hr. pose proof (rep_sized _ _ _ _ HR) as Hz. unfold vd_iter_mut_clone.
  cbn [vc_data vc_vtable]. rewrite (byte_chunks_mut_rep P G HG t d xs HR), map_map.
  unfold vc_element_type_id. cbn [vc_data]. rewrite (rep_elem _ _ _ _ HR). cbn [elem_new e_type_id e_alignment].
  change (fun x : payload => ValMut (enc G t x) t (t_align (G t)) (VRef (build_vtable t))) with (elem_mut t).
  rewrite (clone_from_each_seq t xs r t' y w Hz Hr).
  destruct (t =? t') eqn:Et.
  - apply N.eqb_eq in Et as <-.
    destruct (replace_seq G t (repeat y (List.length xs)) xs (w_trace w)) as [[ys ok] tr] eqn:Es.
    pose proof (replace_seq_len G t _ _ _ _ _ _ Es) as Hlen.
    pose proof (replace_seq_bal G t _ _ _ _ _ _ Es) as Hb.
    rewrite (set_chunks_with_vals G t d xs ys HR) by now apply lenN_eq.
    destruct ok.
    + eapply LP_ret; [rewrite set_tr_trace; reflexivity| | |exact Hb].
      * apply (with_vals_rep G t d xs _ HR). now apply lenN_eq.
      * rewrite with_vals_own. apply Owns_set_tr. exact HO.
    + apply (LP_panic G t xs (build_vtable t) w l [] _ _ PUser _ _ (Some ys) [] []).
      * apply VL_rep. apply (with_vals_rep G t d xs _ HR). now apply lenN_eq.
      * rewrite set_tr_trace. eauto.
      * rewrite with_vals_own. apply Owns_set_tr. exact HO.
      * exact Hb.
  - rewrite (set_chunks_with_vals G t d xs xs HR eq_refl), (with_vals_id t d xs HR).
    now apply loc_ret_same.
Qed.

Lemma iter_mut_clone_loc_pois t d xs r w l :
  Rep G t d xs -> Owns w (vv_own d ++ l) -> ref_ok G r None ->
  loc_post G t xs (build_vtable t) w l [] (Some (tt, xs, w_trace w)) (fun _ _ => False)
    (vd_iter_mut_clone P G r (VecCopy d (build_vtable t)) w).
Proof using HG.
  intros HR HO Hr. unfold vd_iter_mut_clone.
  cbn [vc_data vc_vtable]. rewrite (byte_chunks_mut_rep P G HG t d xs HR), map_map.
  unfold vc_element_type_id. cbn [vc_data]. rewrite (rep_elem _ _ _ _ HR). cbn [elem_new e_type_id e_alignment].
  change (fun x : payload => ValMut (enc G t x) t (t_align (G t)) (VRef (build_vtable t))) with (elem_mut t).
  rewrite clone_from_each_pois; [|apply (rep_not_unit G HG _ _ _ HR)|exact Hr].
  rewrite (set_chunks_with_vals G t d xs xs HR eq_refl), (with_vals_id t d xs HR).
  now apply loc_ret_same.
Qed.

Lemma iter_mut_clone_pois t0 n k r w :
  dpois G (build_vtable t0) w []
    (vd_iter_mut_clone P G r (VecCopy (pois_vec n k) (build_vtable t0)) w).
Proof.
  unfold vd_iter_mut_clone. cbn [vc_data]. destruct (chunks_mut_pois P n k) as [p ->].
  apply dpois_same. exact I.
Qed.

(** ** get_mut(i).assign(value) *)

Lemma assign_loc t d xs i v t' x w l :
  Rep G t d xs -> VRep G v t' x -> Owns w (vv_own d ++ vl_own v ++ l) ->
  fits P (i + 1) (t_size (G t)) ->
  loc_post G t xs (build_vtable t) w l (owned_vals G t' [x])
    (match nthN xs i with
     | Some old =>
         if t =? t' then Some (tt, list_set xs (N.to_nat i) x, w_trace w ++ drops G t' [old])
         else Some (tt, xs, w_trace w ++ drops G t' [x])
     | None => None
     end)
    (fun left tr => nthN xs i = None /\ left = Some xs /\ tr = w_trace w ++ drops G t' [x])
    (vd_assign P G i v (VecCopy d (build_vtable t)) w).
Proof using HG HQ HL.
  intros HR HV HO Hfit. unfold vd_assign. pose proof (rep_sized _ _ _ _ HR) as Hz.
  apply Owns_swap in HO.
  destruct (nthN xs i) as [old|] eqn:Ei.
  2:{ destruct (vd_get_out P G HG t d (build_vtable t) xs i HR Ei Hfit) as (p & _ & ->).
      destruct (vl_drop_rep G HG HQ v t' x w _ HV HO) as (w' & -> & HO' & Ht).
      cbn [unwind].
      apply (LP_panic G t xs (build_vtable t) w l _ _ _ p d w' (Some xs) [] []).
      - apply VL_rep. exact HR.
      - rewrite Ht. auto.
      - exact HO'.
      - intros q. cbn [left_vals]. rewrite Ht. cnts q. lia. }
  pose proof (nthN_some _ _ _ Ei) as Hlt. unfold vd_with_mut.
  rewrite (vd_get_mut_rep P G HG t d (build_vtable t) xs i old HR Ei). cbn [vc_data vc_vtable].
  destruct (vm_assign_ok G HG HQ _ t old v t' x w _ (mut_elem t old Hz) HV HO)
    as (m' & w' & -> & Hb & HO' & Ht).
  rewrite Hb. destruct (t =? t') eqn:Et.
  - apply N.eqb_eq in Et as <-. rewrite (splice_one_with_vals G t d xs i x HR Hlt).
    eapply LP_ret.
    + rewrite Ht. reflexivity.
    + apply (with_vals_rep G t d xs _ HR). apply lenN_list_set.
    + rewrite with_vals_own. exact HO'.
    + intros q. rewrite Ht.
      pose proof (cnt_perm q _ _ (owned_vals_list_set G t xs _ x old Ei)) as Hp.
      revert Hp. cnts q. lia.
  - rewrite (splice_one_with_vals G t d xs i old HR Hlt).
    rewrite (list_set_nthN xs i old Ei), (with_vals_id t d xs HR).
    eapply LP_ret; [rewrite Ht; reflexivity|exact HR|exact HO'|].
    intros q. rewrite Ht. cnts q. lia.
Qed.

Lemma assign_pois t0 n k i v t' x w l :
  t_size (G t0) <> 0 -> VRep G v t' x -> Owns w (vl_own v ++ l) ->
  dpois_at (build_vtable t0) w l (owned_vals G t' [x])
    (vd_assign P G i v (VecCopy (pois_vec n k) (build_vtable t0)) w).
Proof using HG HQ HL.
  intros Hz HV HO. unfold vd_assign.
  destruct (vd_get_mut_pois P i n k (build_vtable t0)) as [[p ->]| Hg].
  - destruct (vl_drop_rep G HG HQ v t' x w _ HV HO) as (w' & -> & HO' & Ht). cbn [unwind].
    apply DPA; [exact I|exact HO'| |rewrite Ht; ext]. intros q. rewrite Ht. cnts q. lia.
  - rewrite Hg. unfold vd_with_mut. rewrite Hg. cbn [vc_data vc_vtable].
    unfold vm_assign, vm_swap. cbn [vm_type_id vm_bytes]. change (vm_type_id (vl_as_mut v)) with (vl_type_id v).
    change (vm_bytes (vl_as_mut v)) with (vl_bytes v).
    rewrite (vp_type _ _ _ _ HV), (vp_bytes _ _ _ _ HV).
    destruct (unit_id =? t') eqn:Et.
    + apply N.eqb_eq in Et as <-. rewrite enc_nil by apply (wf_unit_size G HG). rewrite N.eqb_refl.
      cbn [vm_with_bytes vm_bytes].
      replace (Value (vl_store v) [] unit_id (vl_alignment v) (vl_tblk v) (vl_table v)) with v.
      2:{ destruct v. pose proof (vp_bytes _ _ _ _ HV) as E1. pose proof (vp_type _ _ _ _ HV) as E2.
          cbn in *. subst. rewrite enc_nil by apply (wf_unit_size G HG). reflexivity. }
      destruct (vl_drop_rep G HG HQ v unit_id x w _ HV HO) as (w' & -> & HO' & Ht).
      rewrite splice_pois. apply DPA; [exact I|exact HO'| |rewrite Ht; ext]. intros q. rewrite Ht. cnts q. lia.
    + cbn [vm_with_bytes vm_bytes]. change (vm_bytes (vl_as_mut v)) with (vl_bytes v).
      replace (Value (vl_store v) (vl_bytes v) t' (vl_alignment v) (vl_tblk v) (vl_table v)) with v.
      2:{ destruct v. pose proof (vp_type _ _ _ _ HV) as E2. cbn in *. subst. reflexivity. }
      destruct (vl_drop_rep G HG HQ v t' x w _ HV HO) as (w' & -> & HO' & Ht).
      rewrite splice_pois. apply DPA; [exact I|exact HO'| |rewrite Ht; ext]. intros q. rewrite Ht. cnts q. lia.
Qed.

(** ** push(value) *)

Lemma push_loc t d xs v t' x b w l :
  Rep G t d xs -> VRep G v t' x -> vl_store v = Boxed b -> Owns w (vv_own d ++ vl_own v ++ l) ->
  (t' = t -> t_align (G t) = 1) ->
  loc_post G t xs (build_vtable t) w l (owned_vals G t' [x])
    (if t' =? t then Some (true, xs ++ [x], w_trace w)
     else Some (false, xs, w_trace w ++ drops G t' [x]))
    (fun left tr => t' = t /\ left = None /\ tr = w_trace w /\
       (t_size (G t) <> 1 \/ no_room G t (lenN xs) (lenN xs + 1)))
    (vd_push P G v (VecCopy d (build_vtable t)) w).
Proof using HG HQ HL.
  intros HR HV Hb HO Hal. unfold vd_push, vd_element_type_id, vc_element_type_id. cbn [vc_data].
  rewrite (rep_type G _ _ _ HR), (vp_type _ _ _ _ HV). apply Owns_swap in HO.
  destruct (t' =? t) eqn:Et.
  2:{ destruct (vl_drop_rep G HG HQ v t' x w _ HV HO) as (w' & -> & HO' & Ht). cbn [obind].
      eapply LP_ret; [rewrite Ht; reflexivity|exact HR|exact HO'|].
      intros q. rewrite Ht. cnts q. lia. }
  apply N.eqb_eq in Et as ->. specialize (Hal eq_refl).
  rewrite (vl_own_rep G _ _ _ HV), Hb in HO. cbn [store_own] in HO.
  rewrite <- app_assoc in HO. apply Owns_swap in HO.
  destruct (table_free_own (V := V) (vl_tblk v) w _ (vp_tblk _ _ _ _ HV) HO) as (w1 & -> & HO1 & Ht1).
  apply Owns_swap in HO1. rewrite Hb, (vp_bytes _ _ _ _ HV). unfold on_data. cbn [vc_data vc_vtable].
  pose proof (rep_sized _ _ _ _ HR) as Hz. rewrite Hal in HO1.
  assert (Hpt : ptr_ok b (lenN (enc G t x))).
  { rewrite enc_length. pose proof (vp_store _ _ _ _ HV) as Hs. now rewrite Hb in Hs. }
  assert (Hfree : forall w2 k, Owns w2 (k ++ owned b (t_size (G t)) 1 ++ l) ->
    exists w3, byte_box_drop (ByteBox b (enc G t x)) w2 = (Ret tt, w3) /\ Owns w3 (k ++ l) /\
               w_trace w3 = w_trace w2).
  { intros w2 k HO2. unfold byte_box_drop. cbn [bb_blk bb_bytes].
    apply dealloc_owns; [exact Hpt|]. rewrite enc_length. now apply Owns_swap. }
  destruct (N.eq_dec (t_size (G t)) 1) as [Hs1|Hs1].
  - assert (Hsa : t_size (G t) = t_align (G t)) by lia.
    pose proof (vv_push_one_chunk P G HG t d xs x w1 _ HR HO1 Hsa) as HX.
    destruct HX as [d' w' HR' _ _ HO' Ht' _|w' Hlt Hcap HO' Ht'|w' i Hbad HO' Ht'].
    + destruct (Hfree w' (vv_own d') HO') as (w3 & -> & HO3 & Ht3). cbn [obind].
      eapply LP_ret; [rewrite Ht3, Ht', Ht1; reflexivity|exact HR'|exact HO3|].
      intros q. rewrite Ht3, Ht', Ht1. cnts q. lia.
    + destruct (Hfree w' [] HO') as (w3 & -> & HO3 & Ht3). cbn [unwind].
      apply (LP_panic G t xs (build_vtable t) w l _ _ _ PCapacity vv_default w3 None [] (owned_vals G t (xs ++ [x]))).
      * apply VL_pois. apply vv_default_poisoned.
      * rewrite Ht3, Ht', Ht1. csplit; try reflexivity. right.
        rewrite lenN_app in Hlt, Hcap. change (lenN [x]) with 1 in Hlt, Hcap.
        eapply no_room_of; [exact HG|exact HR| | |exact Hlt|exact Hcap]; lia.
      * exact HO3.
      * intros q. rewrite Ht3, Ht', Ht1. cnts q. lia.
    + destruct Hbad. lia.
  - assert (Hlt : t_align (G t) < t_size (G t)) by lia.
    destruct (vv_push_many_chunks P G HG t d xs (enc G t x) w1 _ HR HO1 Hlt (enc_length G t x))
      as (w' & leak & Hcase & HO' & Ht' & _).
    assert (HX : exists p, vv_push P (enc G t x) d w1 = (Panic p, vv_default, w')).
    { destruct Hcase as [E|[E _]]; eauto. }
    destruct HX as [p ->].
    destruct (Hfree w' leak HO') as (w3 & -> & HO3 & Ht3). cbn [unwind].
    apply (LP_panic G t xs (build_vtable t) w l _ _ _ p vv_default w3 None leak (owned_vals G t (xs ++ [x]))).
    + apply VL_pois. apply vv_default_poisoned.
    + rewrite Ht3, Ht', Ht1. csplit; try reflexivity. left. exact Hs1.
    + exact HO3.
    + intros q. rewrite Ht3, Ht', Ht1. cnts q. lia.
Qed.

Lemma push_pois t0 n k v t' x w l :
  VRep G v t' x -> t' <> unit_id -> Owns w (vl_own v ++ l) ->
  dpois_at (build_vtable t0) w l (owned_vals G t' [x])
    (vd_push P G v (VecCopy (pois_vec n k) (build_vtable t0)) w).
Proof using HG HQ HL.
  intros HV Hu HO. unfold vd_push, vd_element_type_id, vc_element_type_id. cbn [vc_data].
  rewrite (vp_type _ _ _ _ HV). change (e_type_id (vv_elem (pois_vec n k))) with unit_id.
  apply N.eqb_neq in Hu. rewrite Hu.
  destruct (vl_drop_rep G HG HQ v t' x w _ HV HO) as (w' & -> & HO' & Ht). cbn [obind].
  apply DPA; [exact I|exact HO'| |rewrite Ht; ext]. intros q. rewrite Ht. cnts q. lia.
Qed.

End Ops.
