(** * DynMachineProofs: every step of a program over [VecDyn]s and owned values keeps the objects
    valid, keeps every value accounted for, and has its list meaning. *)

From Verif Require Export DynOps2.

Section DynMachineProofs.
Context {V : Type} `{HD : HasDrop V} `{HCl : HasClone V} `{HE : HasPartialEq V} `{HH : HasHash V}
        `{HF : HasDebug V} `{HT : VTable V} `{HS : Sized V} {HL : Lawful V}.
Context (P : profile) (G : tenv) (HG : wf_tenv G) (HC : clones_ok G) (HQ : drops_quietly G).

(** ** Objects *)

Definition is_small (v : value V) : bool := match vl_store v with Inline => true | Boxed _ => false end.

Inductive obj_rel : obj (V := V) -> lobj -> Prop :=
| OR_vec t d xs : Rep G t d xs -> obj_rel (OVec (VecCopy d (build_vtable t))) (LVec t xs)
| OR_val v t x : VRep G v t x -> obj_rel (OVal v) (LVal (is_small v) t x)
| OR_lost t n k :
    t_size (G t) <> 0 -> obj_rel (OVec (VecCopy (pois_vec n k) (build_vtable t))) LLost.

Definition lobj_vals (a : lobj) : list tval :=
  match a with LVec t xs => owned_vals G t xs | LVal _ t v => owned_vals G t [v] | LLost => [] end.

Inductive obj_ok : obj (V := V) -> list tval -> Prop :=
| OK_rel x a : obj_rel x a -> obj_ok x (lobj_vals a).

Lemma OK_pois t n k : t_size (G t) <> 0 -> obj_ok (OVec (VecCopy (pois_vec n k) (build_vtable t))) [].
Proof. intros Hz. exact (OK_rel _ LLost (OR_lost t n k Hz)). Qed.

Lemma rep_fun t d xs t' xs' : Rep G t d xs -> Rep G t' d xs' -> t = t' /\ xs = xs'.
Proof.
  intros H H'. pose proof (rep_type G _ _ _ H) as E. rewrite (rep_type G _ _ _ H') in E.
  subst t'. split; [reflexivity|]. apply (encs_inj G t); [apply H|].
  rewrite <- (rep_bytes _ _ _ _ H), <- (rep_bytes _ _ _ _ H'). reflexivity.
Qed.

Lemma vrep_fun v t x t' x' : VRep G v t x -> VRep G v t' x' -> t = t' /\ x = x'.
Proof.
  intros H H'. assert (t = t') as <-.
  { rewrite <- (vp_type _ _ _ _ H). apply (vp_type _ _ _ _ H'). }
  split; [reflexivity|]. destruct (N.eq_dec (t_size (G t)) 0) as [Hz|Hz].
  - pose proof (vp_val _ _ _ _ H Hz). pose proof (vp_val _ _ _ _ H' Hz). congruence.
  - apply (enc_inj G t); [exact Hz|]. rewrite <- (vp_bytes _ _ _ _ H). apply (vp_bytes _ _ _ _ H').
Qed.

Lemma rep_not_pois t n k xs : ~ Rep G t (pois_vec n k) xs.
Proof. intros H. apply (rep_blk _ _ _ _ H). reflexivity. Qed.

Lemma obj_rel_fun x a a' : obj_rel x a -> obj_rel x a' -> a = a'.
Proof.
  intros H H'. inversion H as [t d xs HR E1 E2|v t y HR E1 E2|t n k Hz E1 E2]; subst;
    inversion H' as [t' d' xs' HR' E1' E2'|v' t' y' HR' E1' E2'|t' n' k' Hz' E1' E2']; subst;
    try reflexivity.
  - destruct (rep_fun _ _ _ _ _ HR HR') as [-> ->]. reflexivity.
  - elim (rep_not_pois _ _ _ _ HR).
  - destruct (vrep_fun _ _ _ _ _ HR HR') as [-> ->]. reflexivity.
  - elim (rep_not_pois _ _ _ _ HR').
Qed.

Lemma obj_ok_vals x vs : obj_ok x vs -> obj_vals G x = vs.
Proof using HG.
  intros H. destruct H as [x a H]. destruct H as [t d xs HR|v t x HR|t n k Hz].
  - unfold obj_vals, vd_element_type_id, vd_as_slice_as, vc_element_type_id. cbn [vc_data].
    rewrite (rep_type G _ _ _ HR), (as_slice_as_rep G t d _ xs t HR). unfold typed.
    rewrite N.eqb_refl. reflexivity.
  - unfold obj_vals. rewrite (vr_downcast_rep G v t x HR), (vp_type _ _ _ _ HR). reflexivity.
  - cbn [obj_vals]. change (vd_element_type_id (VecCopy (pois_vec n k) (build_vtable t))) with unit_id.
    destruct (vd_as_slice_as G unit_id (VecCopy (pois_vec n k) (build_vtable t))) as [[xs|]| | |]; try reflexivity.
    apply (unit_owned G HG).
Qed.

Definition slot_ok (s : option (obj (V := V))) : Prop :=
  match s with None => True | Some x => exists vs, obj_ok x vs end.
Definition slot_vals (s : option (obj (V := V))) : list tval :=
  match s with Some x => obj_vals G x | None => [] end.
Definition slot_blocks (s : option (obj (V := V))) : list block :=
  match s with Some x => obj_blocks x | None => [] end.
Definition slot_rel (s : option (obj (V := V))) (a : option lobj) : Prop :=
  match s, a with
  | None, None => True
  | Some x, Some a => obj_rel x a
  | _, _ => False
  end.

Definition dinv (st : dstate (V := V)) (leak : list block) : Prop :=
  Forall slot_ok (d_objs st) /\ Owns (d_world st) (obj_blocks_of st ++ leak).
Definition drel (st : dstate (V := V)) (lst : lstate) : Prop :=
  Forall2 slot_rel (d_objs st) (l_objs lst) /\ w_trace (d_world st) = l_trace lst.

Lemma dget_some (st : dstate (V := V)) h x : dget st h = Some x <-> nth_error (d_objs st) h = Some (Some x).
Proof. unfold dget. destruct (nth_error (d_objs st) h) as [[y|]|]; split; congruence. Qed.

Lemma drel_get st lst h x : drel st lst -> dget st h = Some x -> exists a, lget lst h = Some a /\ obj_rel x a.
Proof.
  intros [HR _] Hg. apply dget_some in Hg. destruct (Forall2_nth _ _ _ _ _ HR Hg) as (y & Hy & Hs).
  destruct y as [a|]; [|contradiction]. exists a. unfold lget. now rewrite Hy.
Qed.

Lemma drel_get_as st lst h x a : drel st lst -> dget st h = Some x -> obj_rel x a -> lget lst h = Some a.
Proof.
  intros HR Hg Ha. destruct (drel_get st lst h x HR Hg) as (a' & Hl & Ha'). rewrite Hl. f_equal.
  now apply (obj_rel_fun x).
Qed.

Lemma drel_get_none st lst h : drel st lst -> dget st h = None -> lget lst h = None.
Proof.
  intros [HR _] Hg. unfold dget in Hg. unfold lget.
  destruct (nth_error (d_objs st) h) as [[x|]|] eqn:E; [discriminate| |].
  - destruct (Forall2_nth _ _ _ _ _ HR E) as (y & -> & Hs). destruct y; [contradiction|reflexivity].
  - now rewrite (Forall2_nth_none _ _ _ _ HR E).
Qed.

Lemma drel_pois st lst h n k t :
  drel st lst -> dget st h = Some (OVec (VecCopy (pois_vec n k) (build_vtable t))) ->
  t_size (G t) <> 0 -> lget lst h = Some LLost.
Proof. intros HR Hg Hz. exact (drel_get_as st lst h _ _ HR Hg (OR_lost t n k Hz)). Qed.

(** Putting back what was there changes nothing. *)
Lemma lget_set_same lst h a : lget lst h = Some a -> list_set (l_objs lst) h (Some a) = l_objs lst.
Proof.
  unfold lget. intros H. apply list_set_same.
  destruct (nth_error (l_objs lst) h) as [[b|]|]; congruence.
Qed.

Lemma obj_ok_get st leak h x : dinv st leak -> dget st h = Some x -> exists vs, obj_ok x vs.
Proof.
  intros [HFa _] Hg. apply dget_some in Hg. rewrite Forall_forall in HFa. apply (HFa (Some x)).
  now apply nth_error_In in Hg.
Qed.

(** What kinds of object there are. *)
Lemma vec_cases st leak h b :
  dinv st leak -> dget st h = Some (OVec b) ->
  (exists t d xs, b = VecCopy d (build_vtable t) /\ Rep G t d xs) \/
  (exists t n k, b = VecCopy (pois_vec n k) (build_vtable t) /\ t_size (G t) <> 0).
Proof.
  intros HI Hg. destruct (obj_ok_get st leak h _ HI Hg) as [vs Hok].
  inversion Hok as [x a Hr E1 E2]; subst. inversion Hr; subst; [left|right]; eauto 6.
Qed.

Lemma val_cases st leak h v :
  dinv st leak -> dget st h = Some (OVal v) -> exists t x, VRep G v t x.
Proof.
  intros HI Hg. destruct (obj_ok_get st leak h _ HI Hg) as [vs Hok].
  inversion Hok as [x a Hr E1 E2]; subst. inversion Hr; subst. eauto.
Qed.

(** What is left of a vector. *)
Lemma left_rel t d left :
  vec_left G t d left -> t_size (G t) <> 0 ->
  obj_rel (OVec (VecCopy d (build_vtable t))) (left_obj t left).
Proof.
  intros [xs HR|HP] Hz; cbn [left_obj]; [now constructor|].
  rewrite (poisoned_shape d HP). now constructor.
Qed.

Lemma left_obj_vals t left : lobj_vals (left_obj t left) = left_vals G t left.
Proof. destruct left; reflexivity. Qed.

Lemma left_ok t d left :
  vec_left G t d left -> t_size (G t) <> 0 ->
  obj_ok (OVec (VecCopy d (build_vtable t))) (left_vals G t left).
Proof. intros H Hz. rewrite <- left_obj_vals. apply OK_rel. now apply left_rel. Qed.

(** ** Taking objects out of the state and putting others back *)

Lemma dinv_out st leak h x :
  dinv st leak -> dget st h = Some x ->
  exists rb rv,
    Owns (d_world st) (obj_blocks x ++ rb ++ leak) /\
    (forall q, cnt q (stored G st) = (cnt q (obj_vals G x) + cnt q rv)%nat) /\
    forall s' w' leak', slot_ok s' -> Owns w' (slot_blocks s' ++ leak' ++ rb ++ leak) ->
      dinv (dset st h s' w') (leak' ++ leak) /\
      (forall q, cnt q (stored G (dset st h s' w')) = (cnt q (slot_vals s') + cnt q rv)%nat).
Proof.
  intros [HFa HO] Hg. apply dget_some in Hg.
  destruct (flat_map_set slot_blocks (d_objs st) h (Some x) Hg) as (rb & H1 & H2).
  destruct (flat_map_set slot_vals (d_objs st) h (Some x) Hg) as (rv & H3 & H4).
  exists rb, rv. split; [|split].
  - eapply Owns_perm; [|exact HO]. unfold obj_blocks_of. fold slot_blocks. rewrite H1.
    cbn [slot_blocks]. now rewrite <- app_assoc.
  - intros q. unfold stored. fold slot_vals. rewrite (cnt_perm q _ _ H3), cnt_app. reflexivity.
  - intros s' w' leak' Hs HO'. split.
    + split; [now apply Forall_set|]. cbn [dset d_world d_objs]. eapply Owns_perm; [|exact HO'].
      unfold obj_blocks_of. cbn [dset d_objs]. fold slot_blocks. rewrite H2. rewrite <- app_assoc.
      apply Permutation_app_head. apply Permutation_app_swap_app.
    + intros q. unfold stored. cbn [dset d_objs]. fold slot_vals. rewrite (cnt_perm q _ _ (H4 s')), cnt_app. reflexivity.
Qed.

Lemma dinv_out2 st leak h k x y :
  dinv st leak -> dget st h = Some x -> dget st k = Some y -> h <> k ->
  exists rb rv,
    Owns (d_world st) (obj_blocks x ++ obj_blocks y ++ rb ++ leak) /\
    (forall q, cnt q (stored G st) = (cnt q (obj_vals G x) + cnt q (obj_vals G y) + cnt q rv)%nat) /\
    forall s1 s2 w' leak', slot_ok s1 -> slot_ok s2 ->
      Owns w' (slot_blocks s1 ++ slot_blocks s2 ++ leak' ++ rb ++ leak) ->
      dinv (dset (dset st h s1 w') k s2 w') (leak' ++ leak) /\
      (forall q, cnt q (stored G (dset (dset st h s1 w') k s2 w')) =
                 (cnt q (slot_vals s1) + cnt q (slot_vals s2) + cnt q rv)%nat).
Proof.
  intros [HFa HO] Hg Hg' Hne. apply dget_some in Hg. apply dget_some in Hg'.
  destruct (flat_map_set2 slot_blocks (d_objs st) h k (Some x) (Some y) Hg Hg' Hne) as (rb & H1 & H2).
  destruct (flat_map_set2 slot_vals (d_objs st) h k (Some x) (Some y) Hg Hg' Hne) as (rv & H3 & H4).
  exists rb, rv. split; [|split].
  - eapply Owns_perm; [|exact HO]. unfold obj_blocks_of. fold slot_blocks. rewrite H1.
    cbn [slot_blocks]. now rewrite <- !app_assoc.
  - intros q. unfold stored. fold slot_vals. rewrite (cnt_perm q _ _ H3), !cnt_app. cbn [slot_vals]. lia.
  - intros s1 s2 w' leak' Hs1 Hs2 HO'. split.
    + split; [now repeat apply Forall_set|]. cbn [dset d_world d_objs]. eapply Owns_perm; [|exact HO'].
      unfold obj_blocks_of. cbn [dset d_objs]. fold slot_blocks. rewrite H2. rewrite <- !app_assoc.
      do 2 apply Permutation_app_head. apply Permutation_app_swap_app.
    + intros q. unfold stored. cbn [dset d_objs]. fold slot_vals. rewrite (cnt_perm q _ _ (H4 s1 s2)), !cnt_app. lia.
Qed.

Lemma dinv_add st leak leak' x w' :
  dinv st leak -> slot_ok (Some x) -> Owns w' (obj_blocks x ++ leak' ++ obj_blocks_of st ++ leak) ->
  dinv (DState (d_objs st ++ [Some x]) w') (leak' ++ leak) /\
  (forall q, cnt q (stored G (DState (d_objs st ++ [Some x]) w')) =
             (cnt q (stored G st) + cnt q (obj_vals G x))%nat).
Proof.
  intros [HFa HO] Hs HO'. split.
  - split; cbn [d_objs d_world].
    + apply Forall_app. auto.
    + eapply Owns_perm; [|exact HO']. unfold obj_blocks_of. cbn [d_objs]. rewrite flat_map_app.
      cbn [flat_map]. rewrite app_nil_r. fold (obj_blocks_of st). rewrite <- !app_assoc.
      rewrite (Permutation_app_swap_app leak'). rewrite (Permutation_app_swap_app (obj_blocks x)).
      reflexivity.
  - intros q. unfold stored. cbn [d_objs]. rewrite flat_map_app. cbn [flat_map].
    rewrite app_nil_r, cnt_app. reflexivity.
Qed.

Lemma dinv_world st leak leak' w' :
  dinv st leak -> Owns w' (leak' ++ obj_blocks_of st ++ leak) -> dinv (dworld st w') (leak' ++ leak).
Proof.
  intros [HFa HO] HO'. split; [exact HFa|]. cbn [d_world dworld]. eapply Owns_perm; [|exact HO'].
  unfold obj_blocks_of. cbn [dworld d_objs]. apply Permutation_app_swap_app.
Qed.

Lemma stored_world st w : stored G (dworld (V := V) st w) = stored G st.
Proof. reflexivity. Qed.

Lemma drel_set st lst h s a w' tr' :
  drel st lst -> slot_rel s a -> w_trace w' = tr' ->
  drel (dset st h s w') (LState (list_set (l_objs lst) h a) tr').
Proof. intros [HR _] Hs Ht. split; [|exact Ht]. cbn [dset d_objs l_objs]. now apply Forall2_set. Qed.

Lemma drel_set2 st lst h k s1 s2 a1 a2 w' tr' :
  drel st lst -> slot_rel s1 a1 -> slot_rel s2 a2 -> w_trace w' = tr' ->
  drel (dset (dset st h s1 w') k s2 w')
       (LState (list_set (list_set (l_objs lst) h a1) k a2) tr').
Proof.
  intros [HR _] Hs1 Hs2 Ht. split; [|exact Ht]. cbn [dset d_objs l_objs]. now repeat apply Forall2_set.
Qed.

Lemma drel_add st lst x a w' tr' :
  drel st lst -> obj_rel x a -> w_trace w' = tr' ->
  drel (DState (d_objs st ++ [Some x]) w') (LState (l_objs lst ++ [Some a]) tr').
Proof.
  intros [HR _] Ha Ht. split; [|exact Ht]. cbn [d_objs l_objs]. apply Forall2_app; [exact HR|].
  constructor; [exact Ha|constructor].
Qed.

(** ** What a step must achieve *)

Inductive dstep_post (s : dstep) (st : dstate (V := V)) (leak : list block)
  : outcome dreport * dstate (V := V) -> Prop :=
| DS_invalid :
    (forall lst, drel st lst -> dyn_step G s lst = Some (DInvalid, lst)) ->
    dstep_post s st leak (Ret DInvalid, st)
| DS_ret a st' leak' lost :
    dinv st' (leak' ++ leak) ->
    bal G (stored G st) (step_gives G s) (w_trace (d_world st))
          (stored G st') (step_takes G s (DObs a)) lost (w_trace (d_world st')) ->
    (loses s (DObs a) = false -> leak' = [] /\ lost = []) ->
    (forall lst, drel st lst -> exists lst', dacts G lst s (Some (DObs a)) lst' /\ drel st' lst') ->
    dstep_post s st leak (Ret (DObs a), st')
| DS_panic p st' leak' lost :
    dinv st' (leak' ++ leak) ->
    bal G (stored G st) (step_gives G s) (w_trace (d_world st))
          (stored G st') [] lost (w_trace (d_world st')) ->
    (forall lst, drel st lst -> exists lst', dacts G lst s None lst' /\ drel st' lst') ->
    dstep_post s st leak (Panic p, st').

(** A panic that changes nothing. *)
Lemma panic_same s st leak p :
  dinv st leak -> step_gives G s = [] ->
  (forall lst, drel st lst -> dacts G lst s None lst) ->
  dstep_post s st leak (Panic p, st).
Proof.
  intros HI Hg Hl. apply (DS_panic s st leak p st [] []); [exact HI| |].
  - rewrite Hg. intros q. cnts q. lia.
  - intros lst HR. exists lst. auto.
Qed.

(** A call that changes nothing. *)
Lemma ret_same s st leak a :
  dinv st leak -> step_gives G s = [] -> step_takes G s (DObs a) = [] ->
  (forall lst, drel st lst -> dacts G lst s (Some (DObs a)) lst) ->
  dstep_post s st leak (Ret (DObs a), st).
Proof.
  intros HI Hg Ht Hl. apply (DS_ret s st leak a st [] []); [exact HI| |now split|].
  - rewrite Hg, Ht. intros q. cnts q. lia.
  - intros lst HR. exists lst. split; [now apply Hl|exact HR].
Qed.

(** Using a vector whose contents are gone, when nothing changes. *)
Lemma lost_same lst s r h :
  In h (names s) -> lget lst h = Some LLost -> consume s lst = l_objs lst /\ handed G s lst = [] ->
  dacts G lst s r lst.
Proof.
  intros Hin Hl [Hc Hh]. apply D_lost; [exists h; auto|auto|]. exists []. rewrite Hh.
  split; [constructor|]. now rewrite app_nil_r.
Qed.

(** One vector. *)
Lemma loc_step {A} s st leak h t d xs (k : A -> dobs) spec may r :
  dinv st leak -> dget st h = Some (OVec (VecCopy d (build_vtable t))) -> Rep G t d xs ->
  (forall l, Owns (d_world st) (vv_own d ++ l) ->
     loc_post G t xs (build_vtable t) (d_world st) l (step_gives G s) spec may r) ->
  (forall a, step_takes G s (DObs (k a)) = []) ->
  (forall lst, drel st lst -> lget lst h = Some (LVec t xs) -> l_trace lst = w_trace (d_world st) ->
     forall a ys tr, spec = Some (a, ys, tr) ->
       dacts G lst s (Some (DObs (k a))) (LState (list_set (l_objs lst) h (Some (LVec t ys))) tr)) ->
  (forall lst, drel st lst -> lget lst h = Some (LVec t xs) -> l_trace lst = w_trace (d_world st) ->
     forall left tr, may left tr ->
       dacts G lst s None (LState (list_set (l_objs lst) h (Some (left_obj t left))) tr)) ->
  dstep_post s st leak
    (let '(o, b', w') := r in (oreport (let! a := o in Ret (k a)), dset st h (Some (OVec b')) w')).
Proof using HG.
  intros HI Hg HR Hloc Htk Hspec Hmay.
  destruct (dinv_out st leak h _ HI Hg) as (rb & rv & HO & Hc & Hback).
  rewrite (obj_ok_vals _ _ (OK_rel _ _ (OR_vec t d xs HR))) in Hc. cbn [lobj_vals] in Hc.
  specialize (Hloc (rb ++ leak) HO).
  destruct Hloc as [a ys d' w' Hs HR' HO' Hb|p d' w' left lk lost Hh Hm HO' Hb]; cbn [obind oreport].
  - assert (Hok : obj_ok (OVec (VecCopy d' (build_vtable t))) (owned_vals G t ys))
      by apply (OK_rel _ _ (OR_vec t d' ys HR')).
    destruct (Hback (Some (OVec (VecCopy d' (build_vtable t)))) w' []) as [HI' Hc'].
    { eexists. exact Hok. } { exact HO'. }
    cbn [slot_vals] in Hc'. rewrite (obj_ok_vals _ _ Hok) in Hc'.
    apply (DS_ret s st leak (k a) _ [] []); [exact HI'| |now split|].
    + rewrite Htk. intros q. specialize (Hb q). rewrite Hc, Hc'. cbn [dset d_world].
      revert Hb. cnts q. lia.
    + intros lst HRel. pose proof (drel_get_as st lst h _ _ HRel Hg (OR_vec t d xs HR)) as Hl.
      eexists. split; [apply (Hspec lst HRel Hl (eq_sym (proj2 HRel)) a ys _ Hs)|].
      apply drel_set; [exact HRel|constructor; exact HR'|reflexivity].
  - pose proof (left_ok t d' left Hh (rep_sized _ _ _ _ HR)) as Hok.
    destruct (Hback (Some (OVec (VecCopy d' (build_vtable t)))) w' lk) as [HI' Hc'].
    { eexists. exact Hok. } { exact HO'. }
    cbn [slot_vals] in Hc'. rewrite (obj_ok_vals _ _ Hok) in Hc'.
    apply (DS_panic s st leak p _ lk lost); [exact HI'| |].
    + intros q. specialize (Hb q). rewrite Hc, Hc'. cbn [dset d_world]. revert Hb. cnts q. lia.
    + intros lst HRel. pose proof (drel_get_as st lst h _ _ HRel Hg (OR_vec t d xs HR)) as Hl.
      eexists. split; [apply (Hmay lst HRel Hl (eq_sym (proj2 HRel)) left _ Hm)|].
      apply drel_set; [exact HRel|apply (left_rel t d' left Hh (rep_sized _ _ _ _ HR))|reflexivity].
Qed.

Lemma pois_step {A} s st leak h t n c (k : A -> dobs) r :
  dinv st leak -> dget st h = Some (OVec (VecCopy (pois_vec n c) (build_vtable t))) -> t_size (G t) <> 0 ->
  (forall l, Owns (d_world st) l -> dpois_at G (build_vtable t) (d_world st) l (step_gives G s) r) ->
  (forall a, step_takes G s (DObs (k a)) = []) ->
  (forall a, loses s (DObs (k a)) = false) ->
  In h (names s) -> (forall lst, consume s lst = l_objs lst) ->
  (forall lst, handed G s lst = given_drops (step_gives G s)) ->
  dstep_post s st leak
    (let '(o, b', w') := r in (oreport (let! a := o in Ret (k a)), dset st h (Some (OVec b')) w')).
Proof using HG.
  intros HI Hg Hz Hp Htk Hls Hin Hcon Hhand.
  destruct (dinv_out st leak h _ HI Hg) as (rb & rv & HO & Hc & Hback).
  rewrite (obj_ok_vals _ _ (OK_pois t n c Hz)) in Hc.
  specialize (Hp (rb ++ leak) HO). destruct Hp as [o n' c' w' Hsafe HO' Hb Hx].
  destruct (Hback (Some (OVec (VecCopy (pois_vec n' c') (build_vtable t)))) w' []) as [HI' Hc'].
  { eexists. apply (OK_pois t n' c' Hz). } { exact HO'. }
  cbn [slot_vals] in Hc'. rewrite (obj_ok_vals _ _ (OK_pois t n' c' Hz)) in Hc'.
  assert (Hl : forall r lst, drel st lst -> exists lst', dacts G lst s r lst' /\
            drel (dset st h (Some (OVec (VecCopy (pois_vec n' c') (build_vtable t)))) w') lst').
  { intros r lst HRel. pose proof (drel_pois st lst h n c t HRel Hg Hz) as Hlost.
    exists (LState (list_set (l_objs lst) h (Some LLost)) (w_trace w')). split.
    - apply D_lost; [exists h; auto| |].
      + cbn [l_objs]. rewrite Hcon. now apply lget_set_same.
      + cbn [l_trace]. rewrite <- (proj2 HRel), Hhand. exact Hx.
    - apply drel_set; [exact HRel|now constructor|reflexivity]. }
  destruct o as [a|p|u|]; try contradiction; cbn [obind oreport].
  - apply (DS_ret s st leak (k a) _ [] []); [exact HI'| |now split|].
    + rewrite Htk. intros q. specialize (Hb q). rewrite Hc, Hc'. cbn [dset d_world]. revert Hb. cnts q. lia.
    + apply Hl.
  - apply (DS_panic s st leak p _ [] []); [exact HI'| |apply Hl].
    intros q. specialize (Hb q). rewrite Hc, Hc'. cbn [dset d_world]. revert Hb. cnts q. lia.
Qed.

(** A vector and an owned value that is used up. *)
Lemma loc_step2 {A} s st leak h j t d xs v t' x (k : A -> dobs) spec may r :
  dinv st leak -> dget st h = Some (OVec (VecCopy d (build_vtable t))) -> Rep G t d xs ->
  dget st j = Some (OVal v) -> VRep G v t' x ->
  (forall l, Owns (d_world st) (vv_own d ++ vl_own v ++ l) ->
     loc_post G t xs (build_vtable t) (d_world st) l (owned_vals G t' [x]) spec may r) ->
  step_gives G s = [] -> (forall a, step_takes G s (DObs (k a)) = []) ->
  (forall lst, drel st lst -> lget lst h = Some (LVec t xs) -> lget lst j = Some (LVal (is_small v) t' x) ->
     l_trace lst = w_trace (d_world st) ->
     forall a ys tr, spec = Some (a, ys, tr) ->
       dacts G lst s (Some (DObs (k a)))
         (LState (list_set (list_set (l_objs lst) h (Some (LVec t ys))) j None) tr)) ->
  (forall lst, drel st lst -> lget lst h = Some (LVec t xs) -> lget lst j = Some (LVal (is_small v) t' x) ->
     l_trace lst = w_trace (d_world st) ->
     forall left tr, may left tr ->
       dacts G lst s None
         (LState (list_set (list_set (l_objs lst) h (Some (left_obj t left))) j None) tr)) ->
  dstep_post s st leak
    (let '(o, b', w') := r in
     (oreport (let! a := o in Ret (k a)), dset (dset st h (Some (OVec b')) w') j None w')).
Proof using HG.
  intros HI Hg HR Hg' HV Hloc Hgv Htk Hspec Hmay.
  assert (Hne : h <> j) by (intros ->; congruence).
  destruct (dinv_out2 st leak h j _ _ HI Hg Hg' Hne) as (rb & rv & HO & Hc & Hback).
  rewrite (obj_ok_vals _ _ (OK_rel _ _ (OR_vec t d xs HR))) in Hc.
  rewrite (obj_ok_vals _ _ (OK_rel _ _ (OR_val v t' x HV))) in Hc. cbn [lobj_vals] in Hc.
  rewrite obj_blocks_own in HO.
  specialize (Hloc (rb ++ leak) HO).
  destruct Hloc as [a ys d' w' Hs HR' HO' Hb|p d' w' left lk lost Hh Hm HO' Hb]; cbn [obind oreport].
  - assert (Hok : obj_ok (OVec (VecCopy d' (build_vtable t))) (owned_vals G t ys))
      by apply (OK_rel _ _ (OR_vec t d' ys HR')).
    destruct (Hback (Some (OVec (VecCopy d' (build_vtable t)))) None w' []) as [HI' Hc'].
    { eexists. exact Hok. } { exact I. } { exact HO'. }
    cbn [slot_vals] in Hc'. rewrite (obj_ok_vals _ _ Hok) in Hc'.
    apply (DS_ret s st leak (k a) _ [] []); [exact HI'| |now split|].
    + rewrite Htk, Hgv. intros q. specialize (Hb q). rewrite Hc, Hc'. cbn [dset d_world].
      revert Hb. cnts q. lia.
    + intros lst HRel. pose proof (drel_get_as st lst h _ _ HRel Hg (OR_vec t d xs HR)) as Hl.
      pose proof (drel_get_as st lst j _ _ HRel Hg' (OR_val v t' x HV)) as Hl'.
      eexists. split; [apply (Hspec lst HRel Hl Hl' (eq_sym (proj2 HRel)) a ys _ Hs)|].
      apply drel_set2; [exact HRel|constructor; exact HR'|exact I|reflexivity].
  - pose proof (left_ok t d' left Hh (rep_sized _ _ _ _ HR)) as Hok.
    destruct (Hback (Some (OVec (VecCopy d' (build_vtable t)))) None w' lk) as [HI' Hc'].
    { eexists. exact Hok. } { exact I. } { exact HO'. }
    cbn [slot_vals] in Hc'. rewrite (obj_ok_vals _ _ Hok) in Hc'.
    apply (DS_panic s st leak p _ lk lost); [exact HI'| |].
    + rewrite Hgv. intros q. specialize (Hb q). rewrite Hc, Hc'. cbn [dset d_world].
      revert Hb. cnts q. lia.
    + intros lst HRel. pose proof (drel_get_as st lst h _ _ HRel Hg (OR_vec t d xs HR)) as Hl.
      pose proof (drel_get_as st lst j _ _ HRel Hg' (OR_val v t' x HV)) as Hl'.
      eexists. split; [apply (Hmay lst HRel Hl Hl' (eq_sym (proj2 HRel)) left _ Hm)|].
      apply drel_set2; [exact HRel| |exact I|reflexivity].
      apply (left_rel t d' left Hh (rep_sized _ _ _ _ HR)).
Qed.

Lemma pois_step2 {A} s st leak h j t n c v t' x (k : A -> dobs) r :
  dinv st leak -> dget st h = Some (OVec (VecCopy (pois_vec n c) (build_vtable t))) -> t_size (G t) <> 0 ->
  dget st j = Some (OVal v) -> VRep G v t' x ->
  (forall l, Owns (d_world st) (vl_own v ++ l) ->
     dpois_at G (build_vtable t) (d_world st) l (owned_vals G t' [x]) r) ->
  step_gives G s = [] -> (forall a, step_takes G s (DObs (k a)) = []) ->
  (forall a, loses s (DObs (k a)) = false) ->
  In h (names s) ->
  (forall lst, lget lst j = Some (LVal (is_small v) t' x) -> consume s lst = list_set (l_objs lst) j None) ->
  (forall lst, lget lst j = Some (LVal (is_small v) t' x) -> handed G s lst = drops G t' [x]) ->
  dstep_post s st leak
    (let '(o, b', w') := r in
     (oreport (let! a := o in Ret (k a)), dset (dset st h (Some (OVec b')) w') j None w')).
Proof using HG.
  intros HI Hg Hz Hg' HV Hp Hgv Htk Hls Hin Hcon Hhand.
  assert (Hne : h <> j) by (intros ->; congruence).
  destruct (dinv_out2 st leak h j _ _ HI Hg Hg' Hne) as (rb & rv & HO & Hc & Hback).
  rewrite (obj_ok_vals _ _ (OK_pois t n c Hz)) in Hc.
  rewrite (obj_ok_vals _ _ (OK_rel _ _ (OR_val v t' x HV))) in Hc. cbn [lobj_vals] in Hc.
  rewrite obj_blocks_own in HO.
  specialize (Hp (rb ++ leak) HO). destruct Hp as [o n' c' w' Hsafe HO' Hb Hx].
  destruct (Hback (Some (OVec (VecCopy (pois_vec n' c') (build_vtable t)))) None w' []) as [HI' Hc'].
  { eexists. apply (OK_pois t n' c' Hz). } { exact I. } { exact HO'. }
  cbn [slot_vals] in Hc'. rewrite (obj_ok_vals _ _ (OK_pois t n' c' Hz)) in Hc'.
  assert (Hl : forall r lst, drel st lst -> exists lst', dacts G lst s r lst' /\
            drel (dset (dset st h (Some (OVec (VecCopy (pois_vec n' c') (build_vtable t)))) w') j None w') lst').
  { intros r lst HRel. pose proof (drel_pois st lst h n c t HRel Hg Hz) as Hlost.
    exists (LState (list_set (list_set (l_objs lst) h (Some LLost)) j None) (w_trace w')). split.
    - apply D_lost; [exists h; auto| |].
      + cbn [l_objs]. rewrite Hcon by exact (drel_get_as st lst j _ _ HRel Hg' (OR_val v t' x HV)).
        now rewrite lget_set_same.
      + cbn [l_trace].
        rewrite Hhand by exact (drel_get_as st lst j _ _ HRel Hg' (OR_val v t' x HV)).
        rewrite <- (proj2 HRel), <- given_owned. exact Hx.
    - apply drel_set2; [exact HRel|now constructor|exact I|reflexivity]. }
  destruct o as [a|p|u|]; try contradiction; cbn [obind oreport].
  - apply (DS_ret s st leak (k a) _ [] []); [exact HI'| |now split|].
    + rewrite Htk, Hgv. intros q. specialize (Hb q). rewrite Hc, Hc'. cbn [dset d_world]. revert Hb. cnts q. lia.
    + apply Hl.
  - apply (DS_panic s st leak p _ [] []); [exact HI'| |apply Hl]. rewrite Hgv.
    intros q. specialize (Hb q). rewrite Hc, Hc'. cbn [dset d_world]. revert Hb. cnts q. lia.
Qed.

(** Two vectors. *)
Lemma two_step {A} s st leak h h' t d xs t' d' ys (k : A -> dobs) spec may r :
  dinv st leak -> dget st h = Some (OVec (VecCopy d (build_vtable t))) -> Rep G t d xs ->
  dget st h' = Some (OVec (VecCopy d' (build_vtable t'))) -> Rep G t' d' ys -> h <> h' ->
  (forall l, Owns (d_world st) (vv_own d ++ vv_own d' ++ l) ->
     two_post G t xs (build_vtable t) t' ys (build_vtable t') (d_world st) l spec may r) ->
  step_gives G s = [] -> (forall a, step_takes G s (DObs (k a)) = []) ->
  (forall lst, drel st lst -> lget lst h = Some (LVec t xs) -> lget lst h' = Some (LVec t' ys) ->
     l_trace lst = w_trace (d_world st) ->
     forall a xs' ys', spec = Some (a, xs', ys') ->
       dacts G lst s (Some (DObs (k a)))
         (LState (list_set (list_set (l_objs lst) h (Some (LVec t xs')))
                    h' (Some (LVec t' ys'))) (l_trace lst))) ->
  (forall lst, drel st lst -> lget lst h = Some (LVec t xs) -> lget lst h' = Some (LVec t' ys) ->
     l_trace lst = w_trace (d_world st) ->
     forall left left', may left left' ->
       dacts G lst s None
         (LState (list_set (list_set (l_objs lst) h (Some (left_obj t left)))
                    h' (Some (left_obj t' left'))) (l_trace lst))) ->
  dstep_post s st leak
    (let '(o, b, b', w') := r in
     (oreport (let! a := o in Ret (k a)), dset (dset st h (Some (OVec b)) w') h' (Some (OVec b')) w')).
Proof using HG.
  intros HI Hg HR Hg' HR' Hne Htwo Hgv Htk Hspec Hmay.
  destruct (dinv_out2 st leak h h' _ _ HI Hg Hg' Hne) as (rb & rv & HO & Hc & Hback).
  rewrite (obj_ok_vals _ _ (OK_rel _ _ (OR_vec t d xs HR))) in Hc.
  rewrite (obj_ok_vals _ _ (OK_rel _ _ (OR_vec t' d' ys HR'))) in Hc. cbn [lobj_vals] in Hc.
  specialize (Htwo (rb ++ leak) HO).
  destruct Htwo as [a xs1 ys1 d1 d1' w' Hs HR1 HR1' HO' Ht Hb|p d1 d1' left left' w' lk lost Hh Hh' Hm Ht HO' Hb];
    cbn [obind oreport].
  - assert (Hok : obj_ok (OVec (VecCopy d1 (build_vtable t))) (owned_vals G t xs1))
      by apply (OK_rel _ _ (OR_vec t d1 xs1 HR1)).
    assert (Hok' : obj_ok (OVec (VecCopy d1' (build_vtable t'))) (owned_vals G t' ys1))
      by apply (OK_rel _ _ (OR_vec t' d1' ys1 HR1')).
    destruct (Hback (Some (OVec (VecCopy d1 (build_vtable t)))) (Some (OVec (VecCopy d1' (build_vtable t')))) w' [])
      as [HI' Hc'].
    { eexists. exact Hok. } { eexists. exact Hok'. } { exact HO'. }
    cbn [slot_vals] in Hc'. rewrite (obj_ok_vals _ _ Hok), (obj_ok_vals _ _ Hok') in Hc'.
    apply (DS_ret s st leak (k a) _ [] []); [exact HI'| |now split|].
    + rewrite Htk, Hgv. intros q. specialize (Hb q). rewrite Hc, Hc'. cbn [dset d_world].
      revert Hb. cnts q. lia.
    + intros lst HRel. pose proof (drel_get_as st lst h _ _ HRel Hg (OR_vec t d xs HR)) as Hl.
      pose proof (drel_get_as st lst h' _ _ HRel Hg' (OR_vec t' d' ys HR')) as Hl'.
      eexists. split; [apply (Hspec lst HRel Hl Hl' (eq_sym (proj2 HRel)) a xs1 ys1 Hs)|].
      apply drel_set2; [exact HRel|constructor; exact HR1|constructor; exact HR1'|].
      rewrite Ht. apply HRel.
  - pose proof (left_ok t d1 left Hh (rep_sized _ _ _ _ HR)) as Hok.
    pose proof (left_ok t' d1' left' Hh' (rep_sized _ _ _ _ HR')) as Hok'.
    destruct (Hback (Some (OVec (VecCopy d1 (build_vtable t)))) (Some (OVec (VecCopy d1' (build_vtable t')))) w' lk)
      as [HI' Hc'].
    { eexists. exact Hok. } { eexists. exact Hok'. } { exact HO'. }
    cbn [slot_vals] in Hc'. rewrite (obj_ok_vals _ _ Hok), (obj_ok_vals _ _ Hok') in Hc'.
    apply (DS_panic s st leak p _ lk lost); [exact HI'| |].
    + rewrite Hgv. intros q. specialize (Hb q). rewrite Hc, Hc'. cbn [dset d_world].
      revert Hb. cnts q. lia.
    + intros lst HRel. pose proof (drel_get_as st lst h _ _ HRel Hg (OR_vec t d xs HR)) as Hl.
      pose proof (drel_get_as st lst h' _ _ HRel Hg' (OR_vec t' d' ys HR')) as Hl'.
      eexists. split; [apply (Hmay lst HRel Hl Hl' (eq_sym (proj2 HRel)) left left' Hm)|].
      apply drel_set2; [exact HRel| | |].
      * apply (left_rel t d1 left Hh (rep_sized _ _ _ _ HR)).
      * apply (left_rel t' d1' left' Hh' (rep_sized _ _ _ _ HR')).
      * rewrite Ht. apply HRel.
Qed.

Lemma two_pois_step {A} s st leak h h' t d vs t' d' vs' (k : A -> dobs) r :
  dinv st leak -> dget st h = Some (OVec (VecCopy d (build_vtable t))) -> vec_left G t d vs ->
  t_size (G t) <> 0 ->
  dget st h' = Some (OVec (VecCopy d' (build_vtable t'))) -> vec_left G t' d' vs' ->
  t_size (G t') <> 0 -> h <> h' -> Poisoned d \/ Poisoned d' ->
  (forall l, Owns (d_world st) (vv_own d ++ vv_own d' ++ l) ->
     two_pois G t vs (build_vtable t) t' vs' (build_vtable t') (d_world st) l r) ->
  step_gives G s = [] -> (forall a, step_takes G s (DObs (k a)) = []) ->
  In h (names s) -> In h' (names s) -> (forall lst, consume s lst = l_objs lst) ->
  (forall lst, handed G s lst = []) ->
  dstep_post s st leak
    (let '(o, b, b', w') := r in
     (oreport (let! a := o in Ret (k a)), dset (dset st h (Some (OVec b)) w') h' (Some (OVec b')) w')).
Proof using HG.
  intros HI Hg Hh Hz Hg' Hh' Hz' Hne Hpp Htwo Hgv Htk Hin Hin' Hcon Hhand.
  destruct (dinv_out2 st leak h h' _ _ HI Hg Hg' Hne) as (rb & rv & HO & Hc & Hback).
  rewrite (obj_ok_vals _ _ (left_ok t d vs Hh Hz)) in Hc.
  rewrite (obj_ok_vals _ _ (left_ok t' d' vs' Hh' Hz')) in Hc.
  specialize (Htwo (rb ++ leak) HO). destruct Htwo as [o d1 d1' w' Hsafe Hh1 Hh1' HO' Ht].
  pose proof (left_ok t d1 vs Hh1 Hz) as Hok. pose proof (left_ok t' d1' vs' Hh1' Hz') as Hok'.
  destruct (Hback (Some (OVec (VecCopy d1 (build_vtable t)))) (Some (OVec (VecCopy d1' (build_vtable t')))) w' [])
    as [HI' Hc'].
  { eexists. exact Hok. } { eexists. exact Hok'. } { exact HO'. }
  cbn [slot_vals] in Hc'. rewrite (obj_ok_vals _ _ Hok), (obj_ok_vals _ _ Hok') in Hc'.
  assert (Hl : forall r lst, drel st lst -> exists lst', dacts G lst s r lst' /\
            drel (dset (dset st h (Some (OVec (VecCopy d1 (build_vtable t)))) w')
                    h' (Some (OVec (VecCopy d1' (build_vtable t')))) w') lst').
  { intros r lst HRel.
    pose proof (drel_get_as st lst h _ _ HRel Hg (left_rel t d vs Hh Hz)) as Hl1.
    pose proof (drel_get_as st lst h' _ _ HRel Hg' (left_rel t' d' vs' Hh' Hz')) as Hl2.
    exists (LState (list_set (list_set (l_objs lst) h (Some (left_obj t vs))) h' (Some (left_obj t' vs')))
              (w_trace w')). split.
    - apply D_lost.
      + destruct Hpp as [Hp|Hp].
        * exists h. split; [exact Hin|]. rewrite (poisoned_shape _ Hp) in Hg.
          exact (drel_pois st lst h _ _ t HRel Hg Hz).
        * exists h'. split; [exact Hin'|]. rewrite (poisoned_shape _ Hp) in Hg'.
          exact (drel_pois st lst h' _ _ t' HRel Hg' Hz').
      + cbn [l_objs]. rewrite Hcon, (lget_set_same lst h _ Hl1). now apply lget_set_same.
      + cbn [l_trace]. rewrite Ht, <- (proj2 HRel), Hhand. apply (extends_refl (w_trace (d_world st))).
    - apply drel_set2; [exact HRel|now apply left_rel|now apply left_rel|reflexivity]. }
  destruct o as [a|p|u|]; try contradiction; cbn [obind oreport].
  - apply (DS_ret s st leak (k a) _ [] []); [exact HI'| |now split|].
    + rewrite Htk, Hgv. intros q. rewrite Hc, Hc'. cbn [dset d_world]. rewrite Ht. cnts q. lia.
    + apply Hl.
  - apply (DS_panic s st leak p _ [] []); [exact HI'| |apply Hl]. rewrite Hgv.
    intros q. rewrite Hc, Hc'. cbn [dset d_world]. rewrite Ht. cnts q. lia.
Qed.

(** New objects. *)
Lemma new_vec_step s st leak spec may r :
  dinv st leak ->
  new_post G (d_world st) (obj_blocks_of st ++ leak) (step_gives G s) spec may r ->
  step_takes G s (DObs AUnit) = [] ->
  (forall lst, drel st lst -> l_trace lst = w_trace (d_world st) -> forall t xs tr, spec = Some (t, xs, tr) ->
     dacts G lst s (Some (DObs AUnit)) (LState (l_objs lst ++ [Some (LVec t xs)]) tr)) ->
  (forall lst, drel st lst -> l_trace lst = w_trace (d_world st) -> forall tr, may tr ->
     dacts G lst s None (LState (l_objs lst) tr)) ->
  dstep_post s st leak (new_obj OVec r st).
Proof using HG.
  intros HI Hn Htk Hspec Hmay.
  destruct Hn as [t xs d w' Hs HR HO Hb|p w' lk lost Hm HO Hb]; cbn [new_obj].
  - assert (Hok : obj_ok (OVec (VecCopy d (build_vtable t))) (owned_vals G t xs))
      by apply (OK_rel _ _ (OR_vec t d xs HR)).
    destruct (dinv_add st leak [] (OVec (VecCopy d (build_vtable t))) w' HI) as [HI' Hc'].
    { eexists. exact Hok. } { exact HO. }
    rewrite (obj_ok_vals _ _ Hok) in Hc'.
    apply (DS_ret s st leak AUnit _ [] []); [exact HI'| |now split|].
    + rewrite Htk. intros q. specialize (Hb q). rewrite Hc'. cbn [d_world]. revert Hb. cnts q. lia.
    + intros lst HRel. eexists. split; [apply (Hspec lst HRel (eq_sym (proj2 HRel)) t xs _ Hs)|].
      apply drel_add; [exact HRel|now constructor|reflexivity].
  - cbn [retype]. apply (DS_panic s st leak p _ lk lost); [now apply dinv_world| |].
    2:{ intros lst HRel. eexists. split; [apply (Hmay lst HRel (eq_sym (proj2 HRel)) _ Hm)|].
        split; [apply HRel|reflexivity]. }
    intros q. specialize (Hb q). rewrite stored_world. cbn [dworld d_world]. revert Hb. cnts q. lia.
Qed.

(** [r] is a new value holding [x], made after the events [es]. *)
Lemma new_val_step s st leak v t x w' obs :
  dinv st leak -> VRep G v t x -> Owns w' (vl_own v ++ obj_blocks_of st ++ leak) ->
  bal G [] (step_gives G s) (w_trace (d_world st)) (owned_vals G t [x]) [] [] (w_trace w') ->
  step_takes G s (DObs obs) = [] ->
  (forall lst, drel st lst -> l_trace lst = w_trace (d_world st) ->
     dacts G lst s (Some (DObs obs))
       (LState (l_objs lst ++ [Some (LVal (is_small v) t x)]) (w_trace w'))) ->
  dstep_post s st leak (Ret (DObs obs), DState (d_objs st ++ [Some (OVal v)]) w').
Proof using HG.
  intros HI HV HO Hb Htk Hspec.
  assert (Hok : obj_ok (OVal v) (owned_vals G t [x])) by apply (OK_rel _ _ (OR_val v t x HV)).
  destruct (dinv_add st leak [] (OVal v) w' HI) as [HI' Hc'].
  { eexists. exact Hok. } { rewrite obj_blocks_own. exact HO. }
  rewrite (obj_ok_vals _ _ Hok) in Hc'.
  apply (DS_ret s st leak obs _ [] []); [exact HI'| |now split|].
  - rewrite Htk. intros q. specialize (Hb q). rewrite Hc'. cbn [d_world]. revert Hb. cnts q. lia.
  - intros lst HRel. eexists. split; [apply (Hspec lst HRel (eq_sym (proj2 HRel)))|].
    apply drel_add; [exact HRel|now constructor|reflexivity].
Qed.

(** ** Borrowed values *)

Inductive src_ok (st : dstate (V := V)) (src : source) : unit + outcome (vref V) -> Prop :=
| SR_none : (forall lst, drel st lst -> lsource lst src = inl tt) -> src_ok st src (inl tt)
| SR_panic p : (forall lst, drel st lst -> lsource lst src = inr None) -> src_ok st src (inr (Panic p))
| SR_panic_pois p h : In h (source_names src) ->
    (forall lst, drel st lst -> lget lst h = Some LLost) -> src_ok st src (inr (Panic p))
| SR_val r t v : ref_ok G r (Some (t, v)) ->
    (forall lst, drel st lst -> lsource lst src = inr (Some (t, v))) -> src_ok st src (inr (Ret r))
| SR_pois r h : ref_ok G r None -> In h (source_names src) ->
    (forall lst, drel st lst -> lget lst h = Some LLost) -> src_ok st src (inr (Ret r)).

Lemma get_source_ok st leak src :
  dinv st leak -> source_typed G src -> source_in_range P st src ->
  src_ok st src (get_source P G st src).
Proof using HG.
  intros HI Hty Hin. destruct src as [t v|h i|j]; cbn [get_source source_typed source_in_range] in *.
  - apply (SR_val _ _ _ t v); [now apply ref_new|reflexivity].
  - unfold index_in_range in Hin. destruct (dget st h) as [[b|v]|] eqn:Hg.
    + destruct (vec_cases st leak h b HI Hg) as [(t & d & xs & -> & HR)|(t & n & k & -> & Hz)].
      * assert (Hsz : vd_element_size (VecCopy d (build_vtable t)) = t_size (G t))
          by apply (vc_size_rep G HG t d _ xs HR). rewrite Hsz in Hin.
        assert (Hls : forall lst, drel st lst -> lsource lst (FromVec h i) =
                  inr (match nthN xs i with Some x => Some (t, x) | None => None end)).
        { intros lst HRel. cbn [lsource]. now rewrite (drel_get_as st lst h _ _ HRel Hg (OR_vec t d xs HR)). }
        destruct (nthN xs i) as [x|] eqn:Ei.
        -- rewrite (vd_get_rep P G HG t d _ xs i x HR Ei). apply (SR_val _ _ _ t x); [|exact Hls].
           apply ref_elem. apply HR.
        -- destruct (vd_get_out P G HG t d (build_vtable t) xs i HR Ei Hin) as (p & -> & _).
           now apply SR_panic.
      * assert (Hlost : forall lst, drel st lst -> lget lst h = Some LLost).
        { intros lst HRel. exact (drel_pois st lst h n k t HRel Hg Hz). }
        destruct (vd_get_pois P i n k (build_vtable t)) as [[p ->]| ->].
        -- apply (SR_panic_pois _ _ _ h); [now left|exact Hlost].
        -- apply (SR_pois _ _ _ h); [now apply ref_elem_pois|now left|exact Hlost].
    + apply SR_none. intros lst HRel. cbn [lsource].
      destruct (val_cases st leak h v HI Hg) as (t & x & HV).
      now rewrite (drel_get_as st lst h _ _ HRel Hg (OR_val v t x HV)).
    + apply SR_none. intros lst HRel. cbn [lsource]. now rewrite (drel_get_none st lst h HRel Hg).
  - destruct (dget st j) as [[b|v]|] eqn:Hg.
    + apply SR_none. intros lst HRel. cbn [lsource].
      destruct (drel_get st lst j _ HRel Hg) as (a & -> & Ha). inversion Ha; reflexivity.
    + destruct (val_cases st leak j v HI Hg) as (t & x & HV).
      apply (SR_val _ _ _ t x); [now apply ref_value|]. intros lst HRel. cbn [lsource].
      now rewrite (drel_get_as st lst j _ _ HRel Hg (OR_val v t x HV)).
    + apply SR_none. intros lst HRel. cbn [lsource]. now rewrite (drel_get_none st lst j HRel Hg).
Qed.

End DynMachineProofs.
