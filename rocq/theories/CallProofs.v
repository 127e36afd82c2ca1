(** * Every call of the machine on a represented buffer and on a poisoned one. *)

From Verif Require Export SliceProofs.

(** The reason of a panic, as PanicSpec.v has it. *)
Ltac why :=
  cbn [panics_kept panics_lost list_call]; unfold lenN in *;
  repeat match goal with
  | H : ?b = _ |- context [if ?b then _ else _] => rewrite H
  | H : ?b = _ |- context [match ?b with Some _ => _ | None => _ end] => rewrite H
  end;
  first [exact I | reflexivity | assumption | split; [reflexivity|lia]
    | repeat match goal with |- context [if ?b then _ else _] => destruct b eqn:? end;
      try reflexivity; exfalso;
      repeat match goal with
      | H : (_ && _)%bool = true |- _ => apply andb_prop in H; destruct H
      | H : (_ || _)%bool = true |- _ => apply orb_prop in H; destruct H
      | H : (_ =? _) = true |- _ => apply N.eqb_eq in H
      | H : (_ =? _)%nat = true |- _ => apply Nat.eqb_eq in H
      | H : (_ <=? _) = true |- _ => apply N.leb_le in H
      | H : (_ <? _) = true |- _ => apply N.ltb_lt in H
      end; solve [lia | congruence]
    | idtac].

Section Calls.
Context {V : Type} (P : profile) (G : tenv) (HG : wf_tenv G) (build : tyid -> V).

Notation own b := (vv_own (vc_data b)).

(** ** Pushing any number of values *)

Lemma push_as_post t d xs v w l :
  Rep G t d xs -> t_copy (G t) = true -> Owns w (vv_own d ++ l) ->
  exists o d' w', apply_unchecked P G t (push_closure G t v) d w = (o, d', w') /\
    ((o = Ret tt /\ Rep G t d' (xs ++ [v]) /\ Owns w' (vv_own d' ++ l) /\ vv_cap d <= vv_cap d') \/
     (exists p, o = Panic p /\ Poisoned d' /\ Owns w' l /\ vv_cap d = lenN xs /\
        no_room G t (lenN xs) (lenN xs + 1))).
Proof.
  intros H Hc HO. pose proof (push_as_rep P G HG t d xs v w l H HO) as HP.
  destruct (apply_unchecked _ _ _ _ _ _) as [[o d'] w']. exists o, d', w'.
  split; [reflexivity|]. inversion HP; subst.
  - auto.
  - right. match goal with Hx : t_copy _ = true -> _ |- _ => destruct (Hx Hc) as (-> & HO' & Ht) end.
    eexists. csplit; try reflexivity; try assumption; try apply vv_default_poisoned.
    pose proof (rep_sized _ _ _ _ H) as Hz.
    apply (no_room_of G HG t d xs (lenN xs + 1) (t_size (G t)) H Hz); [lia|lia|]. nia.
Qed.

Lemma vc_push_n_any n t d (vt : V) xs v w l :
  Rep G t d xs -> t_copy (G t) = true -> Owns w (vv_own d ++ l) ->
  exists o d' w', vc_push_n P G n t v (VecCopy d vt) w = (o, VecCopy d' vt, w') /\
    ((o = Ret tt /\ Rep G t d' (xs ++ repeat v n) /\ Owns w' (vv_own d' ++ l)) \/
     (exists p k, o = Panic p /\ Poisoned d' /\ Owns w' l /\ k < N.of_nat n /\
        vv_cap d <= lenN xs + k /\ no_room G t (lenN xs + k) (lenN xs + k + 1))).
Proof.
  intros H Hc. revert d xs w H. induction n as [|n IH]; intros d xs w H HO.
  - exists (Ret tt), d, w. cbn. rewrite app_nil_r. auto.
  - cbn [vc_push_n]. rewrite (vc_push_as_eq P G _ _ _ _ _ _ H).
    destruct (push_as_post t d xs v w l H Hc HO)
      as (o & d1 & w1 & -> & [(-> & HR1 & HO1 & Hc1)|(p & -> & HP & HO1 & Hcap & Hno)]);
      cbn [obind retype].
    + destruct (IH d1 (xs ++ [v]) w1 HR1 HO1) as (o & d' & w' & HE & HR).
      exists o, d', w'. split; [exact HE|].
      destruct HR as [HR|(p & k & Ho & HP & HO' & Hk & Hcap & Hno)].
      * left. rewrite <- app_assoc in HR. exact HR.
      * right. exists p, (k + 1). rewrite lenN_app in Hcap, Hno. change (lenN [v]) with 1 in *.
        replace (lenN xs + (k + 1)) with (lenN xs + 1 + k) by lia. csplit; try assumption; lia.
    + exists (Panic p), d1, w1. split; [reflexivity|]. right. exists p, 0. rewrite N.add_0_r.
      csplit; auto; lia.
Qed.

(** ** push and extend *)

Lemma push_ref_post t d xs v w l :
  Rep G t d xs -> Owns w (vv_own d ++ l) ->
  exists o d' w', vv_push P (enc G t v) d w = (o, d', w') /\
    ((o = Ret tt /\ Rep G t d' (xs ++ [v]) /\ Owns w' (vv_own d' ++ l)) \/
     (exists p leak, o = Panic p /\ Poisoned d' /\ Owns w' (leak ++ l) /\ push_fails G t (lenN xs))).
Proof.
  intros H HO. pose proof vv_default_poisoned as HD.
  destruct (N.eq_dec (t_size (G t)) (t_align (G t))) as [E|E].
  - pose proof (vv_push_one_chunk P G HG t d xs v w l H HO E) as HP.
    destruct (vv_push _ _ _ _) as [[o d'] w']. exists o, d', w'. split; [reflexivity|].
    inversion HP; subst.
    + auto.
    + right. exists PCapacity, []. csplit; auto. right.
      assert (Hn : lenN (xs ++ [v]) = lenN xs + 1) by (rewrite lenN_app; reflexivity).
      rewrite Hn in *. pose proof (wf_align_pos G t HG).
      eapply (no_room_of G HG t d xs _ (t_align (G t)) H); [lia|lia|assumption|assumption].
    + exfalso. match goal with Hb : bad_growth _ _ _ _ |- _ => destruct Hb as (? & ? & _) end. lia.
  - pose proof (chunks_size G HG t) as Hs. pose proof (chunks_pos G HG t (rep_sized _ _ _ _ H)).
    pose proof (wf_align_pos G t HG).
    destruct (vv_push_many_chunks P G HG t d xs (enc G t v) w l H HO)
      as (w' & leak & HE & HO' & _ & _).
    { nia. } { apply enc_length. }
    destruct HE as [HE|[HE _]]; rewrite HE.
    + exists (Panic PAssert), vv_default, w'. split; [reflexivity|]. right.
      exists PAssert, leak. csplit; auto. now left.
    + exists (Panic PCapacity), vv_default, w'. split; [reflexivity|]. right.
      exists PCapacity, leak. csplit; auto. now left.
Qed.

Definition refs (vals : list (tyid * payload)) : list (copy_ref V) :=
  map (fun p => mk_ref G build (fst p) (snd p)) vals.

Lemma vc_size_rep t d (vt : V) xs : Rep G t d xs -> vc_element_size (VecCopy d vt) = t_size (G t).
Proof. intros H. unfold vc_element_size. cbn. now apply (rep_num_bytes G HG t d xs). Qed.

Lemma vc_type_rep t d (vt : V) xs : Rep G t d xs -> vc_element_type_id (VecCopy d vt) = t.
Proof. intros H. unfold vc_element_type_id. cbn. now apply (rep_type G t d xs). Qed.

Inductive extend_post (t : tyid) (xs : list payload) (vals : list (tyid * payload)) (vt : V)
    (l : list block) (why : Prop) : outcome unit * veccopy V * world -> Prop :=
| XP_ret d' w' :
    same_type t vals = true -> Rep G t d' (xs ++ map snd vals) -> Owns w' (vv_own d' ++ l) ->
    extend_post t xs vals vt l why (Ret tt, VecCopy d' vt, w')
| XP_prefix p pre t1 v1 rest d' w' :
    vals = pre ++ (t1, v1) :: rest -> same_type t pre = true -> t1 <> t ->
    Rep G t d' (xs ++ map snd pre) -> Owns w' (vv_own d' ++ l) ->
    extend_post t xs vals vt l why (Panic p, VecCopy d' vt, w')
| XP_poison p d' w' leak :
    Poisoned d' -> Owns w' (leak ++ l) -> why ->
    extend_post t xs vals vt l why (Panic p, VecCopy d' vt, w').

Lemma vc_extend_loop_post t d (vt : V) xs vals w l :
  Rep G t d xs -> Owns w (vv_own d ++ l) ->
  extend_post t xs vals vt l
    (exists pre v rest, vals = pre ++ (t, v) :: rest /\ Forall (fun p => fst p = t) pre /\
       push_fails G t (lenN xs + lenN pre))
    (vc_extend_loop P (refs vals) (VecCopy d vt) w).
Proof.
  revert d xs w. induction vals as [|[t1 v1] vals IH]; intros d xs w H HO.
  - cbn. apply XP_ret; try assumption; try reflexivity. cbn. now rewrite app_nil_r.
  - cbn [refs map vc_extend_loop fst snd]. fold (refs vals).
    rewrite (vc_size_rep _ _ _ _ H), (vc_type_rep _ _ _ _ H).
    unfold mk_ref, copy_ref_new at 1 2, cr_size. cbn [cr_bytes cr_type_id]. rewrite enc_length.
    destruct (t1 =? t) eqn:Et.
    + apply N.eqb_eq in Et as ->. rewrite N.eqb_refl. cbn [negb].
      unfold on_data. cbn [vc_data vc_vtable copy_ref_new cr_bytes].
      destruct (push_ref_post t d xs v1 w l H HO)
        as (o & d' & w' & -> & [(-> & HR1 & HO1)|(p & leak & -> & HP & HO1 & Hf)]).
      * pose proof (IH d' _ w' HR1 HO1) as HX. inversion HX; subst.
        -- apply XP_ret; try assumption.
           ++ cbn. now rewrite N.eqb_refl.
           ++ cbn. now rewrite <- app_assoc in H2.
        -- apply (XP_prefix _ _ _ _ _ _ _ ((t, v1) :: pre) t1 v0 rest); try assumption.
           ++ reflexivity.
           ++ cbn. now rewrite N.eqb_refl.
           ++ cbn. rewrite <- app_assoc in *. assumption.
        -- apply (XP_poison _ _ _ _ _ _ _ _ _ leak); try assumption.
           match goal with Hw : exists _ _ _, _ |- _ => destruct Hw as (pre & v & rest & -> & Hp & Hf) end.
           exists ((t, v1) :: pre), v, rest. csplit; [reflexivity|now constructor|].
           rewrite lenN_app in Hf. rewrite lenN_cons. change (lenN [v1]) with 1 in Hf.
           replace (lenN xs + (lenN pre + 1)) with (lenN xs + 1 + lenN pre) by lia. exact Hf.
      * apply (XP_poison _ _ _ _ _ _ _ _ _ leak); try assumption.
        exists [], v1, vals. rewrite lenN_nil, N.add_0_r. csplit; auto.
    + apply N.eqb_neq in Et.
      destruct (negb (t_size (G t1) =? t_size (G t))).
      * apply (XP_prefix _ _ _ _ _ _ _ [] t1 v1 vals); try assumption; try reflexivity.
        cbn. now rewrite app_nil_r.
      * cbn [negb]. apply (XP_prefix _ _ _ _ _ _ _ [] t1 v1 vals); try assumption; try reflexivity.
        cbn. now rewrite app_nil_r.
Qed.

Lemma vc_extend_post t d (vt : V) xs hint vals w l :
  Rep G t d xs -> Owns w (vv_own d ++ l) ->
  extend_post t xs vals vt l (extend_fails G hint vals t (lenN xs))
    (vc_extend P hint (refs vals) (VecCopy d vt) w).
Proof.
  intros H HO. unfold vc_extend, vc_reserve, on_data. cbn [vc_data vc_vtable].
  destruct (vv_reserve_left P G HG t d xs hint w l H HO)
    as [(d1 & w1 & -> & HR & HO1 & _)|(p & d1 & w1 & leak & -> & HP & HO1 & _ & Hf)].
  - pose proof (vc_extend_loop_post t d1 vt xs vals w1 l HR HO1) as HX. inversion HX; subst.
    + now apply XP_ret.
    + now apply (XP_prefix _ _ _ _ _ _ _ pre t1 v1 rest).
    + apply (XP_poison _ _ _ _ _ _ _ _ _ leak); try assumption. now right.
  - apply (XP_poison _ _ _ _ _ _ _ _ _ leak); try assumption. now left.
Qed.

(** ** Copying out *)

Lemma svec_nil_ok sz al : svec_ok sz al svec_nil.
Proof.
  split; cbn.
  - intros Hz. now elim Hz.
  - lia.
  - unfold max_alloc. lia.
Qed.

Lemma vec_drop_nil t w : vec_drop G t svec_nil w = (Ret tt, w).
Proof. reflexivity. Qed.

(** Copying a list of values out into a fresh vector. *)
Lemma append_copy_rep t d (vt : V) xs t' b c ys w l :
  Rep G t d xs -> t_size (G t') <> 0 ->
  svec_ok (t_size (G t')) (t_align (G t')) (SVec b (lenN ys) c (encs G t' ys)) ->
  Owns w (owned b (c * t_size (G t')) (t_align (G t')) ++ l) ->
  exists o b' c' ys' w',
    vc_append_copy_to_vec G t' (VecCopy d vt) (SVec b (lenN ys) c (encs G t' ys)) w =
      (o, SVec b' (lenN ys') c' (encs G t' ys'), w') /\
    svec_ok (t_size (G t')) (t_align (G t')) (SVec b' (lenN ys') c' (encs G t' ys')) /\
    Owns w' (owned b' (c' * t_size (G t')) (t_align (G t')) ++ l) /\
    w_trace w' = w_trace w /\
    ((t' = t /\ o = Ret true /\ ys' = ys ++ xs /\
      (lenN ys + lenN xs <= c -> b' = b /\ c' = c /\ w' = w)) \/
     (t' = t /\ o = Panic PCapacity /\ ys' = ys /\ b' = b /\ c' = c /\ w' = w /\
      c < lenN ys + lenN xs /\
      max_alloc (t_align (G t')) <
        N.max (N.max (c * 2) (lenN ys + lenN xs)) (min_non_zero_cap (t_size (G t'))) * t_size (G t')) \/
     (t' <> t /\ o = Ret false /\ ys' = ys /\ b' = b /\ c' = c /\ w' = w)).
Proof.
  intros H Hz Hok HO. unfold vc_append_copy_to_vec. rewrite (as_slice_as_rep G _ _ _ _ _ H).
  unfold typed. destruct (t' =? t) eqn:E.
  2:{ apply N.eqb_neq in E. exists (Ret false), b, c, ys, w. csplit; auto 10. }
  apply N.eqb_eq in E as ->. unfold vc_len. cbn [vc_data]. rewrite (rep_len _ _ _ _ H).
  assert (Hfin : forall b1 c1 w1,
    svec_ok (t_size (G t)) (t_align (G t)) (SVec b1 (lenN ys) c1 (encs G t ys)) ->
    lenN ys + lenN xs <= c1 ->
    match v_reserve (t_size (G t)) (t_align (G t)) (lenN xs) (SVec b1 (lenN ys) c1 (encs G t ys)) w1 with
    | (Ret _, vec2, w2) =>
        (Ret true, SVec (v_blk vec2) (v_len vec2 + lenN xs) (v_cap vec2)
                        (v_bytes vec2 ++ encs G t xs), w2)
    | (o, vec2, w2) => (retype o, vec2, w2)
    end = (Ret true, SVec b1 (lenN (ys ++ xs)) c1 (encs G t (ys ++ xs)), w1)).
  { intros b1 c1 w1 Hok1 Hle. unfold v_reserve. rewrite v_capacity_sized by exact Hz.
    cbn [v_cap v_len]. destruct (c1 - lenN ys <? lenN xs) eqn:E; [apply N.ltb_lt in E; lia|].
    cbn [v_blk v_len v_cap v_bytes]. now rewrite encs_app, lenN_app. }
  assert (Hok' : forall b1 c1, svec_ok (t_size (G t)) (t_align (G t)) (SVec b1 (lenN ys) c1 (encs G t ys)) ->
    lenN ys + lenN xs <= c1 ->
    svec_ok (t_size (G t)) (t_align (G t)) (SVec b1 (lenN (ys ++ xs)) c1 (encs G t (ys ++ xs)))).
  { intros b1 c1 [Q1 Q2 Q3] Hle. split; cbn in *; try assumption. rewrite lenN_app. exact Hle. }
  destruct (v_reserve_spec (t_size (G t)) (t_align (G t)) (lenN xs) _ w l Hz Hok HO)
    as [[Hle HE]|[Hgt [(b1 & w1 & HE & Hm & Hus & Hpt & HO1 & Ht1)|[HE Hcap]]]]; rewrite HE.
  - rewrite Hfin by assumption. exists (Ret true), b, c, (ys ++ xs), w. csplit; auto 10.
  - cbn [v_len v_bytes]. set (c1 := grow_cap _ _ _) in *.
    assert (Hc1 : lenN ys + lenN xs <= c1) by (unfold c1, grow_cap; cbn [v_cap v_len]; lia).
    assert (Hok1 : svec_ok (t_size (G t)) (t_align (G t)) (SVec b1 (lenN ys) c1 (encs G t ys))).
    { split; cbn; try assumption. lia. }
    rewrite Hfin by assumption. exists (Ret true), b1, c1, (ys ++ xs), w1. csplit; auto 10.
    left. csplit; auto 10. cbn [v_cap v_len] in Hgt. intros. lia.
  - exists (Panic PCapacity), b, c, ys, w. csplit; auto 10.
    right. left. csplit; auto. unfold grow_cap in Hcap. cbn [v_len v_cap] in Hcap.
    pose proof isize_lt_usize. unfold max_alloc in *. destruct Hcap as [Hc|Hc]; nia.
Qed.

(** The call reads the copy and drops it. *)
Lemma copy_into_vec_post t d (vt : V) xs t' w l :
  Rep G t d xs -> t_copy (G t') = true -> Owns w (vv_own d ++ l) ->
  call_post G (SCopyIntoVec t') t xs l (VecCopy d vt) w (list_call (SCopyIntoVec t') t xs)
    (run_call P G build (SCopyIntoVec t') (VecCopy d vt) w).
Proof.
  intros H Hc HO. cbn [run_call list_call]. unfold vc_copy_into_vec.
  destruct (N.eq_dec t' t) as [->|Hne].
  - destruct (append_copy_rep t d vt xs t None 0 [] w (vv_own d ++ l) H (rep_sized _ _ _ _ H))
      as (o & b' & c' & ys' & w' & HE & Hok & HO' & Ht & Hcase).
    { apply svec_nil_ok. } { exact HO. }
    change (SVec None (lenN []) 0 (encs G t [])) with svec_nil in HE. rewrite HE.
    destruct Hcase as [(_ & -> & -> & _)|[(_ & -> & -> & -> & -> & -> & Hlt & Hm)|(Hx & _)]].
    + cbn [app] in *. unfold vec_elems. cbn [v_len v_bytes].
      rewrite read_vals_encs' by apply H.
      destruct (vec_drop_copy G t b' c' xs w' (vv_own d ++ l) Hc (rep_sized _ _ _ _ H)) as (w2 & -> & HO2 & _).
      { apply Hok. } { exact HO'. }
      cbn [obind]. apply (CP_ret _ _ _ _ _ _ _ _ _ xs); try assumption; try reflexivity.
      unfold typed. now rewrite N.eqb_refl.
    + change (SVec None (lenN []) 0 (encs G t [])) with svec_nil. rewrite vec_drop_nil.
      cbn [unwind retype]. apply CP_same; [|assumption]. split; [reflexivity|].
      change (lenN []) with 0 in Hlt, Hm. pose proof (rep_sized _ _ _ _ H) as Hz.
      unfold too_big. fold (max_alloc (t_align (G t))).
      apply (min_cap_small (t_size (G t)) (lenN xs) (t_size (G t)) (t_align (G t)) Hz);
        [lia|lia|apply (wf_legal G HG)|]. nia.
    + now elim Hx.
  - unfold vc_append_copy_to_vec. rewrite (as_slice_as_rep G _ _ _ _ _ H). unfold typed.
    apply N.eqb_neq in Hne. rewrite Hne. rewrite vec_drop_nil. cbn [obind].
    now apply (CP_ret _ _ _ _ _ _ _ _ _ xs).
Qed.

(** ** Lemma A: a call on a represented buffer *)

Lemma fits_weaken n k k' : k <= k' -> fits P n k' -> fits P n k.
Proof. intros H [H'|H']; [left; nia|now right]. Qed.

Lemma drop_val_owns t v w l : Owns w l ->
  exists o w', drop_val G t v w = (o, w') /\ Owns w' l /\ (o = Ret tt \/ o = Panic PUser /\ t_copy (G t) = false).
Proof.
  intros HO. unfold drop_val. destruct (t_copy (G t)) eqn:Ec.
  - eexists _, _. split; [reflexivity|]. auto.
  - eexists _, _. split; [reflexivity|]. split; [now apply Owns_emit|].
    destruct (t_drop_panics _ _ _); auto.
Qed.

Lemma run_call_rep c t d (vt : V) xs w l :
  Rep G t d xs -> t_copy (G t) = true -> Owns w (vv_own d ++ l) ->
  call_typed G c -> call_in_range P G c (VecCopy d vt) ->
  call_post G c t xs l (VecCopy d vt) w (list_call c t xs) (run_call P G build c (VecCopy d vt) w).
Proof.
  intros H Hcopy HO Hty Hin.
  assert (HRet : forall a w', list_call c t xs = Some (a, xs) -> Owns w' (vv_own d ++ l) ->
    call_post G c t xs l (VecCopy d vt) w (list_call c t xs) (Ret a, VecCopy d vt, w')).
  { intros a w' HE HO'. now apply (CP_ret _ _ _ _ _ _ _ _ _ xs). }
  assert (HVals : forall a ys w', list_call c t xs = Some (a, ys) -> lenN ys = lenN xs ->
    Owns w' (vv_own d ++ l) ->
    call_post G c t xs l (VecCopy d vt) w (list_call c t xs)
      (Ret a, VecCopy (with_vals G t d ys) vt, w')).
  { intros a ys w' HE HL HO'. apply (CP_ret _ _ _ _ _ _ _ _ _ ys); try assumption; try reflexivity.
    now apply (with_vals_rep G t d xs). }
  assert (HSame : forall p, panics_kept G c t xs -> call_post G c t xs l (VecCopy d vt) w (list_call c t xs)
                              (Panic p, VecCopy d vt, w)).
  { intros p Hk. now apply CP_same. }
  pose proof (rep_len _ _ _ _ H) as HLen. pose proof (rep_sized _ _ _ _ H) as Hz.
  destruct c.
  - (* SLen *) apply HRet; [|exact HO]. unfold vc_len. cbn [vc_data]. now rewrite HLen.
  - apply HRet; [|exact HO]. unfold vc_is_empty. cbn [vc_data]. now rewrite HLen.
  - cbn [run_call pure]. rewrite (vc_type_rep _ _ _ _ H). now apply HRet.
  - cbn [run_call pure]. rewrite (vc_check_rep _ _ _ _ _ _ H). now apply HRet.
  - (* SReserve *)
    cbn [run_call list_call]. unfold vc_reserve, on_data. cbn [vc_data vc_vtable].
    destruct (vv_reserve_left P G HG t d xs n w l H HO)
      as [(d1 & w1 & -> & HR & HO1 & _)|(p & d1 & w1 & leak & -> & HP & HO1 & _ & Hf)];
      cbn [full obind].
    + now apply (CP_ret _ _ _ _ _ _ _ _ _ xs).
    + now apply (CP_poison _ _ _ _ _ _ _ _ _ _ _ leak).
  - (* SClear *)
    destruct (vv_clear_rep P G HG t d xs w l H HO) as (d' & HE & HR & _ & _ & HO').
    cbn [run_call]. unfold vc_clear, on_data, full. cbn [vc_data vc_vtable]. rewrite HE. cbn [obind].
    now apply (CP_ret _ _ _ _ _ _ _ _ _ []).
  - (* SPushAs *)
    cbn [run_call list_call]. destruct (t0 =? t) eqn:E.
    + apply N.eqb_eq in E as ->. rewrite (vc_push_as_eq P G _ _ _ _ _ _ H).
      destruct (push_as_post t d xs v w l H Hcopy HO)
        as (o & d1 & w1 & -> & [(-> & HR1 & HO1 & _)|(p & -> & HP & HO1 & _ & Hf)]);
        cbn [obind full].
      * now apply (CP_ret _ _ _ _ _ _ _ _ _ (xs ++ [v])).
      * apply (CP_poison _ _ _ _ _ _ _ _ _ _ _ []); [now split|assumption|assumption].
    + unfold vc_push_as. rewrite (vc_check_rep _ _ _ _ _ _ H), E.
      destruct (drop_val_owns t0 v w _ HO) as (o & w' & -> & HO' & [->|[-> Hnc]]); cbn [obind full].
      * apply (CP_ret _ _ _ _ _ _ _ _ _ xs); try assumption; reflexivity.
      * apply CP_same; [|assumption]. apply N.eqb_neq in E. now split.
  - (* SResize *)
    cbn [run_call list_call]. unfold vc_resize. rewrite (vc_check_rep _ _ _ _ _ _ H).
    destruct (t0 =? t) eqn:E.
    2:{ cbn [full obind]. now apply (CP_ret _ _ _ _ _ _ _ _ _ xs). }
    apply N.eqb_eq in E as ->. unfold vc_len. cbn [vc_data]. rewrite HLen.
    destruct (lenN xs <=? n) eqn:En.
    + apply N.leb_le in En. unfold vc_reserve, on_data. cbn [vc_data vc_vtable].
      destruct (vv_reserve_left P G HG t d xs (n - lenN xs) w l H HO)
        as [(d1 & w1 & -> & HR & HO1 & Hroom)|(p & d1 & w1 & leak & -> & HP & HO1 & _ & Hf)].
      * destruct (vc_push_n_any (N.to_nat (n - lenN xs)) t d1 vt xs v w1 l)
          as (o & d2 & w2 & -> & [(-> & HR2 & HO2)|(p & k & -> & HP & HO2 & Hk & Hcap & Hno)]);
          try assumption; cbn [obind full].
        -- apply (CP_ret _ _ _ _ _ _ _ _ _ (xs ++ repeat v (N.to_nat (n - lenN xs))));
             try assumption; try reflexivity.
           rewrite firstn_all2; [reflexivity|]. unfold lenN in *. lia.
        -- apply (CP_poison _ _ _ _ _ _ _ _ _ _ _ []); [|assumption|assumption].
           rewrite N2Nat.id in Hk. split; [reflexivity|]. split; [exact En|]. left. fold (lenN xs).
           destruct (N.le_gt_cases ((n - lenN xs) * chunks_of G t) usize_max) as [Hle|Hgt].
           { apply Hroom in Hle. lia. }
           replace n with (lenN xs + (n - lenN xs)) by lia.
           now apply (over_no_room G HG t d1).
      * cbn [retype full obind]. apply (CP_poison _ _ _ _ _ _ _ _ _ _ _ leak); [|assumption|assumption].
        split; [reflexivity|]. split; [exact En|]. fold (lenN xs).
        now replace (lenN xs + (n - lenN xs)) with n in Hf by lia.
    + apply N.leb_gt in En. unfold on_data. cbn [vc_data vc_vtable].
      destruct (vv_truncate_rep P G HG t d xs n w l H HO) as (d' & HE & HR & _ & _ & HO'); [lia|].
      rewrite HE. cbn [obind full].
      apply (CP_ret _ _ _ _ _ _ _ _ _ (firstnN n xs)); try assumption; try reflexivity.
      replace (n - N.of_nat (List.length xs)) with 0 by (unfold lenN in *; lia).
      cbn [N.to_nat repeat]. now rewrite app_nil_r.
  - (* SFill *)
    cbn [run_call]. unfold vc_fill. rewrite (as_mut_slice_as_rep G _ _ _ _ _ _ H).
    cbn [list_call] in *. destruct (t0 =? t) eqn:E; cbn [noworld obind].
    + apply HVals; [|apply lenN_mapi|exact HO]. unfold mapi. now rewrite mapi_from_const.
    + now apply HRet.
  - (* SUpdate *)
    cbn [run_call]. rewrite (as_mut_slice_as_rep G _ _ _ _ _ _ H).
    cbn [list_call] in *. destruct (t0 =? t) eqn:E; cbn [noworld obind].
    + apply HVals; [reflexivity|apply lenN_mapi|exact HO].
    + now apply HRet.
  - (* SCopyFromSlice *)
    cbn [run_call]. unfold vc_copy_from_slice. cbn [list_call] in *.
    destruct (t0 =? t) eqn:E.
    + destruct (List.length vs =? List.length xs)%nat eqn:EL.
      * apply Nat.eqb_eq in EL. assert (HLv : lenN vs = lenN xs) by (unfold lenN; lia).
        rewrite (with_mut_slice_ret P G HG t d vt xs vs _ (Ret true)); try assumption.
        -- cbn [noworld obind]. now apply HVals.
        -- intros s HS. rewrite (slm_copy_from_slice_rep P G HG t s xs _ _ HS), E.
           rewrite <- HLv. now rewrite N.eqb_refl.
      * apply Nat.eqb_neq in EL.
        destruct (with_mut_slice_same P G HG t d vt xs (slm_copy_from_slice P G t0 vs) H)
          as (s & a & HS & Ha & ->).
        { intros s HS. rewrite (slm_copy_from_slice_rep P G HG t s xs _ _ HS), E.
          destruct (lenN xs =? lenN vs) eqn:EN; [apply N.eqb_eq in EN; unfold lenN in EN; lia|].
          eauto. }
        rewrite (slm_copy_from_slice_rep P G HG t s xs _ _ HS), E in Ha.
        destruct (lenN xs =? lenN vs) eqn:EN; [apply N.eqb_eq in EN; unfold lenN in EN; lia|].
        injection Ha as <-. cbn [noworld obind]. apply HSame. why.
    + destruct (with_mut_slice_same P G HG t d vt xs (slm_copy_from_slice P G t0 vs) H)
        as (s & a & HS & Ha & ->).
      { intros s HS. rewrite (slm_copy_from_slice_rep P G HG t s xs _ _ HS), E. eauto. }
      rewrite (slm_copy_from_slice_rep P G HG t s xs _ _ HS), E in Ha.
      injection Ha as <-. cbn [noworld obind]. now apply HRet.
  - (* SReadAs *)
    cbn [run_call]. rewrite (as_slice_as_rep G _ _ _ _ _ H). cbn [obind pure]. now apply HRet.
  - (* SGetAs *)
    cbn [run_call]. rewrite (get_as_rep G _ _ _ _ _ _ H). cbn [list_call] in *.
    destruct (nthN xs i) as [x|] eqn:En; cbn [obind pure].
    + now apply HRet.
    + apply HSame. why.
  - (* SSetAs *)
    cbn [run_call]. rewrite (set_as_rep G _ _ _ _ _ _ _ H). cbn [list_call] in *.
    fold (lenN xs) in *. destruct (i <? lenN xs) eqn:Ei; [|cbn [noworld obind]; apply HSame; why].
    destruct (t0 =? t); cbn [noworld obind].
    + apply HVals; [reflexivity|apply lenN_list_set|exact HO].
    + now apply HRet.
  - (* SCopyIntoVec *) now apply copy_into_vec_post.
  - (* SRotL *)
    cbn [run_call list_call call_in_range] in *. rewrite (vc_size_rep _ _ _ _ H) in Hin.
    unfold vc_rotate_left. fold (lenN xs).
    destruct (N.le_gt_cases (t_align (G t)) 8192) as [Ha|Ha].
    + destruct (k <=? lenN xs) eqn:Ek.
      * apply N.leb_le in Ek.
        destruct (vv_rotate_left_rep P G HG t d xs k w l H HO Ha Ek) as (d' & HE & HR & _ & _ & HO').
        unfold on_data, full. cbn [vc_data vc_vtable]. rewrite HE. cbn [obind].
        now apply (CP_ret _ _ _ _ _ _ _ _ _ (rotl k xs)).
      * apply N.leb_gt in Ek.
        destruct (vv_rotate_out P G HG t d xs k w l H HO Ha Ek) as (p & w' & _ & HE & _ & HO' & _).
        { apply (fits_weaken _ _ (t_size (G t))); [|exact Hin].
          pose proof (chunks_le_size G HG t 1). lia. }
        unfold on_data, full. cbn [vc_data vc_vtable]. rewrite HE. cbn [obind].
        apply (CP_poison _ _ _ _ _ _ _ _ _ _ _ []); [why|apply vv_default_poisoned|exact HO'].
    + destruct (vv_rotate_big P G HG t d xs k w H Ha) as [HE _].
      unfold on_data, full. cbn [vc_data vc_vtable]. rewrite HE. cbn [obind]. apply CP_same; [why|assumption].
  - (* SRotR *)
    cbn [run_call list_call call_in_range] in *. rewrite (vc_size_rep _ _ _ _ H) in Hin.
    unfold vc_rotate_right. fold (lenN xs).
    destruct (N.le_gt_cases (t_align (G t)) 8192) as [Ha|Ha].
    + destruct (k <=? lenN xs) eqn:Ek.
      * apply N.leb_le in Ek.
        destruct (vv_rotate_right_rep P G HG t d xs k w l H HO Ha Ek) as (d' & HE & HR & _ & _ & HO').
        unfold on_data, full. cbn [vc_data vc_vtable]. rewrite HE. cbn [obind].
        now apply (CP_ret _ _ _ _ _ _ _ _ _ (rotr k xs)).
      * apply N.leb_gt in Ek.
        destruct (vv_rotate_out P G HG t d xs k w l H HO Ha Ek) as (p & w' & _ & _ & HE & HO' & _).
        { apply (fits_weaken _ _ (t_size (G t))); [|exact Hin].
          pose proof (chunks_le_size G HG t 1). lia. }
        unfold on_data, full. cbn [vc_data vc_vtable]. rewrite HE. cbn [obind].
        apply (CP_poison _ _ _ _ _ _ _ _ _ _ _ []); [why|apply vv_default_poisoned|exact HO'].
    + destruct (vv_rotate_big P G HG t d xs k w H Ha) as [_ HE].
      unfold on_data, full. cbn [vc_data vc_vtable]. rewrite HE. cbn [obind]. apply CP_same; [why|assumption].
  - (* SGetRef *)
    cbn [run_call list_call call_in_range pure] in *. unfold vc_len in Hin. cbn [vc_data] in Hin.
    rewrite HLen in Hin. destruct (nthN xs i) as [x|] eqn:En.
    + rewrite (get_ref_rep P G HG _ _ _ _ _ _ H En). cbn [obind].
      rewrite elem_downcast by exact Hz. cbn [obind]. now apply HRet.
    + assert (Hi : lenN xs <= i).
      { destruct (N.le_gt_cases (lenN xs) i) as [Hx|Hx]; [exact Hx|].
        destruct (lenN_nth xs i Hx). congruence. }
      destruct Hin as [Hin|Hin]; [lia|].
      destruct (get_debug P G _ _ vt _ _ H Hi Hin) as [-> _]. cbn [obind]. apply HSame. why.
  - (* SGetMutCopy *)
    cbn [run_call list_call call_in_range] in *. unfold vc_len in Hin. cbn [vc_data] in Hin.
    rewrite HLen in Hin. fold (lenN xs) in *. destruct (i <? lenN xs) eqn:Ei.
    + apply N.ltb_lt in Ei. destruct (lenN_nth xs i Ei) as [x Hx].
      unfold mk_ref. rewrite (get_mut_copy_rep P G HG _ _ _ _ _ _ _ _ _ H Hx).
      destruct (t0 =? t); cbn [noworld obind].
      * apply HVals; [reflexivity|apply lenN_list_set|exact HO].
      * now apply HRet.
    + apply N.ltb_ge in Ei. destruct Hin as [Hin|Hin]; [lia|]. unfold vc_get_mut_copy.
      destruct (get_debug P G _ _ vt _ _ H Ei Hin) as [_ ->]. cbn [retype noworld obind]. apply HSame. why.
  - (* SIter *)
    cbn [run_call pure]. rewrite (iter_rep P G HG _ _ _ _ H). cbn [obind].
    rewrite downcast_all_rep by exact Hz. cbn [obind]. now apply HRet.
  - (* SIterMutCopy *)
    cbn [run_call]. unfold mk_ref. rewrite (iter_mut_copy_rep P G HG _ _ _ _ _ _ _ H).
    cbn [noworld obind]. apply HVals; [reflexivity| |exact HO].
    destruct (t0 =? t); [|reflexivity]. now rewrite lenN_repeat.
  - (* SPush *)
    cbn [run_call list_call] in *. unfold vc_push, mk_ref, copy_ref_new, cr_size.
    cbn [cr_bytes cr_type_id]. rewrite (vc_size_rep _ _ _ _ H), (vc_type_rep _ _ _ _ H), enc_length.
    destruct (t0 =? t) eqn:E.
    + apply N.eqb_eq in E as ->. rewrite N.eqb_refl. unfold on_data. cbn [vc_data vc_vtable].
      destruct (push_ref_post t d xs v w l H HO)
        as (o & d' & w' & -> & [(-> & HR1 & HO1)|(p & leak & -> & HP & HO1 & Hf)]); cbn [obind full].
      * now apply (CP_ret _ _ _ _ _ _ _ _ _ (xs ++ [v])).
      * apply (CP_poison _ _ _ _ _ _ _ _ _ _ _ leak); [now split|assumption|assumption].
    + destruct (N.eqb_spec (t_size (G t0)) (t_size (G t))) as [Ez|Ez]; cbn [full obind].
      * now apply (CP_ret _ _ _ _ _ _ _ _ _ xs).
      * apply CP_same; [exact Ez|assumption].
  - (* SExtend *)
    cbn [run_call list_call] in *. fold (refs vals).
    pose proof (vc_extend_post t d vt xs hint vals w l H HO) as HX.
    inversion HX; subst; cbn [full obind].
    + match goal with Hs : same_type t vals = true |- _ => rewrite Hs end.
      now apply (CP_ret _ _ _ _ _ _ _ _ _ (xs ++ map snd vals)).
    + now apply (CP_prefix _ _ _ _ _ _ _ _ _ hint pre t1 v1 rest).
    + now apply (CP_poison _ _ _ _ _ _ _ _ _ _ _ leak).
  - (* SSwap *)
    cbn [run_call list_call call_in_range] in *. rewrite (vc_size_rep _ _ _ _ H) in Hin.
    destruct Hin as [Hfi Hfj]. fold (lenN xs) in *.
    destruct ((i <? lenN xs) && (j <? lenN xs)) eqn:Eb.
    + apply andb_prop in Eb as [E1 E2]. apply N.ltb_lt in E1, E2. rewrite orb_true_r in *.
      assert (HLs : lenN (swapN i j xs) = lenN xs).
      { unfold swapN. destruct (nthN xs i), (nthN xs j); try reflexivity. now rewrite !lenN_list_set. }
      rewrite (with_mut_slice_ret P G HG t d vt xs (swapN i j xs) _ (Ret tt)); try assumption.
      * cbn [noworld obind]. now apply HVals.
      * intros s HS. now apply slm_swap_rep.
    + destruct (i =? j) eqn:Eij; cbn [orb] in *.
      * apply N.eqb_eq in Eij as ->.
        assert (Hid : swapN j j xs = xs).
        { unfold swapN. destruct (nthN xs j) as [x|] eqn:Ex; [|reflexivity].
          apply nthN_some in Ex. apply N.ltb_lt in Ex. rewrite Ex in Eb. discriminate. }
        destruct (with_mut_slice_same P G HG t d vt xs (slm_swap P j j) H) as (s & a & HS & Ha & ->).
        { intros s HS. unfold slm_swap. rewrite N.eqb_refl. eauto. }
        unfold slm_swap in Ha. rewrite N.eqb_refl in Ha. injection Ha as <-.
        cbn [noworld obind]. rewrite Hid in *. now apply HRet.
      * apply N.eqb_neq in Eij.
        assert (Hout : lenN xs <= i \/ lenN xs <= j).
        { apply andb_false_iff in Eb as [Eb|Eb]; apply N.ltb_ge in Eb; auto. }
        destruct (with_mut_slice_same P G HG t d vt xs (slm_swap P i j) H) as (s & a & HS & Ha & ->).
        { intros s HS. destruct (slm_swap_out P G HG t s xs i j HS Eij Hout Hfi Hfj) as [p ->]. eauto. }
        destruct (slm_swap_out P G HG t s xs i j HS Eij Hout Hfi Hfj) as [p Hp].
        rewrite Hp in Ha. injection Ha as <-. cbn [noworld obind]. apply HSame. why.
  - (* SSliceRotL *)
    cbn [run_call list_call call_in_range] in *. rewrite (vc_size_rep _ _ _ _ H) in Hin.
    fold (lenN xs) in *. destruct (k <=? lenN xs) eqn:Ek.
    + apply N.leb_le in Ek.
      rewrite (with_mut_slice_ret P G HG t d vt xs (rotl k xs) _ (Ret tt)); try assumption.
      * cbn [noworld obind]. apply HVals; [reflexivity|apply rotl_len|exact HO].
      * apply rotl_len.
      * intros s HS. now apply slm_rotate_left_rep.
    + apply N.leb_gt in Ek.
      destruct (with_mut_slice_same P G HG t d vt xs (slm_rotate_left P k) H) as (s & a & HS & Ha & ->).
      { intros s HS. destruct (slm_rotate_out P G HG t s xs k HS Ek Hin) as (p & -> & _). eauto. }
      destruct (slm_rotate_out P G HG t s xs k HS Ek Hin) as (p & Hp & _).
      rewrite Hp in Ha. injection Ha as <-. cbn [noworld obind]. apply HSame. why.
  - (* SSliceRotR *)
    cbn [run_call list_call call_in_range] in *. rewrite (vc_size_rep _ _ _ _ H) in Hin.
    fold (lenN xs) in *. destruct (k <=? lenN xs) eqn:Ek.
    + apply N.leb_le in Ek.
      rewrite (with_mut_slice_ret P G HG t d vt xs (rotr k xs) _ (Ret tt)); try assumption.
      * cbn [noworld obind]. apply HVals; [reflexivity|apply rotr_len|exact HO].
      * apply rotr_len.
      * intros s HS. now apply slm_rotate_right_rep.
    + apply N.leb_gt in Ek.
      destruct (with_mut_slice_same P G HG t d vt xs (slm_rotate_right P k) H) as (s & a & HS & Ha & ->).
      { intros s HS. destruct (slm_rotate_out P G HG t s xs k HS Ek Hin) as (p & _ & ->). eauto. }
      destruct (slm_rotate_out P G HG t s xs k HS Ek Hin) as (p & _ & Hp).
      rewrite Hp in Ha. injection Ha as <-. cbn [noworld obind]. apply HSame. why.
  - (* SSubslice *)
    cbn [run_call list_call call_in_range pure] in *. rewrite (vc_size_rep _ _ _ _ H) in Hin.
    destruct Hin as [Hfa Hfb]. fold (lenN xs) in *.
    destruct (vc_as_slice_rep P G HG t d vt xs H) as (s & -> & HS & _ & _). cbn [obind].
    destruct ((a <=? b) && (b <=? lenN xs)) eqn:Eb.
    + apply andb_prop in Eb as [E1 E2]. apply N.leb_le in E1, E2.
      rewrite (sl_subslice_rep P G HG t s xs a b HS E1 E2). cbn [obind snd].
      rewrite (sl_as_slice_rep P G HG t _ (firstnN (b - a) (skipnN a xs))).
      * cbn [obind]. now apply HRet.
      * apply (sl_vals_rep G t s xs); [exact HS|]. rewrite lenN_firstnN, lenN_skipnN. lia.
    + assert (Hout : b < a \/ lenN xs < b).
      { apply andb_false_iff in Eb as [Eb|Eb]; apply N.leb_gt in Eb; auto. }
      destruct (sl_subslice_out P G HG t s xs a b HS Hout Hfa Hfb) as [p ->]. cbn [obind].
      apply HSame. why.
  - (* SSplitAt *)
    cbn [run_call list_call call_in_range pure] in *. rewrite (vc_size_rep _ _ _ _ H) in Hin.
    fold (lenN xs) in *.
    destruct (vc_as_slice_rep P G HG t d vt xs H) as (s & -> & HS & _ & _). cbn [obind].
    destruct (k <=? lenN xs) eqn:Ek.
    + apply N.leb_le in Ek. rewrite (sl_split_at_rep P G HG t s xs k HS Ek). cbn [obind fst snd].
      rewrite (sl_as_slice_rep P G HG t _ (firstnN k xs)).
      2:{ apply (sl_vals_rep G t s xs); [exact HS|]. rewrite lenN_firstnN. lia. }
      cbn [obind]. rewrite (sl_as_slice_rep P G HG t _ (skipnN k xs)).
      2:{ apply (sl_vals_rep G t s xs); [exact HS|]. rewrite lenN_skipnN. lia. }
      cbn [obind]. now apply HRet.
    + apply N.leb_gt in Ek.
      destruct (sl_split_at_out P G HG t s xs k HS Ek Hin) as [p ->]. cbn [obind]. apply HSame. why.
Qed.

(** ** Lemma B: a call on a poisoned buffer *)

(** No undefined behaviour and no abort. *)
Definition safe {A} (o : outcome A) : Prop :=
  match o with Ret _ | Panic _ => True | _ => False end.

Lemma safe_bind {A B} (o : outcome A) (k : A -> outcome B) :
  safe o -> (forall a, safe (k a)) -> safe (let! a := o in k a).
Proof. destruct o; cbn; auto. Qed.

Definition pois_vec (n c : N) : vecvoid := VecVoid None n c (ElemInfo unit_id 0 1) [].

Lemma poisoned_shape d : Poisoned d -> d = pois_vec (vv_len d) (vv_cap d).
Proof. destruct d. intros [H1 H2 H3]. cbn in *. now subst. Qed.

Lemma pois_vec_poisoned n c : Poisoned (pois_vec n c).
Proof. now split. Qed.

Lemma read_vals_unit n : read_vals G unit_id n [] = Ret (repeat 0%Z n).
Proof.
  pose proof (wf_unit_size G HG) as Hz. induction n as [|n IH]; [reflexivity|].
  cbn [read_vals]. rewrite Hz. change (lenN []) with 0. cbn [N.ltb N.compare].
  unfold firstnN, skipnN. cbn [N.to_nat firstn skipn]. unfold read_val, dec. rewrite Hz. cbn [N.eqb obind].
  rewrite IH. reflexivity.
Qed.

Lemma encs_unit xs : encs G unit_id xs = [].
Proof.
  induction xs as [|x xs IH]; [reflexivity|]. rewrite encs_cons, IH, enc_nil; [reflexivity|].
  apply (wf_unit_size G HG).
Qed.

Lemma vec_drop_unit n c w : vec_drop G unit_id (SVec None n c []) w = (Ret tt, w).
Proof.
  unfold vec_drop, vec_elems. cbn [v_len v_bytes]. rewrite read_vals_unit.
  rewrite drop_vals_copy by apply (wf_unit_copy G HG).
  unfold v_drop_nodrop, dealloc. cbn [v_blk v_cap]. rewrite (wf_unit_size G HG), N.mul_0_r. reflexivity.
Qed.

Lemma umul_0_r n : umul P n 0 = Ret 0.
Proof. rewrite umul_ok; rewrite N.mul_0_r; [reflexivity|]. unfold usize_max. lia. Qed.
Lemma umul_0_l n : umul P 0 n = Ret 0.
Proof. rewrite umul_ok; rewrite N.mul_0_l; [reflexivity|]. unfold usize_max. lia. Qed.

(** Any operation that dispatches on the alignment panics and leaves the default vector, if the
    closure leaves the empty carrier vector alone. *)
Lemma dispatch_pois {A} ev n c (f : N -> svec -> world -> outcome A * svec * world) w :
  ev 1 = Some 1 ->
  (exists o, f 1 (SVec None 0 0 []) w = (o, SVec None 0 0 [], w) /\ safe o) ->
  exists p, dispatch ev P f (pois_vec n c) w = (Panic p, vv_default, w).
Proof.
  intros Hev (o & Hf & Ho). unfold dispatch. cbn [vv_elem pois_vec e_alignment]. rewrite Hev.
  unfold apply_aligned_unchecked, aligned_vec_unchecked.
  cbn [vv_elem pois_vec e_alignment e_size vv_len vv_cap vv_blk vv_bytes].
  rewrite N.eqb_refl, !umul_0_r. rewrite !debug_assert_true by reflexivity.
  cbn [obind]. unfold lift0. rewrite Hf. destruct o; try contradiction.
  - unfold from_vec_override. cbn [e_alignment e_size v_len v_blk v_bytes].
    rewrite v_capacity_sized by lia. cbn [v_cap assert_ N.eqb N.leb N.compare obind].
    change (1 / 1) with 1. rewrite umul_0_l. cbn [obind umod N.eqb Pos.eqb assert_ retype drop0]. eauto.
  - unfold v_drop_nodrop, dealloc. cbn [v_cap N.mul N.eqb unwind drop0]. eauto.
Qed.

Lemma vv_reserve_pois n c k w : exists p, vv_reserve P k (pois_vec n c) w = (Panic p, vv_default, w).
Proof.
  apply dispatch_pois; [reflexivity|]. cbn [vv_elem pois_vec e_size]. rewrite umul_0_r. cbn [with_val].
  unfold v_reserve. rewrite v_capacity_sized by lia. cbn. eexists. split; [reflexivity|exact I].
Qed.

Lemma vv_clear_pois n c w : exists p, vv_clear P (pois_vec n c) w = (Panic p, vv_default, w).
Proof. apply dispatch_pois; [reflexivity|]. eexists. split; [reflexivity|exact I]. Qed.

Lemma vv_truncate_pois n c k w : exists p, vv_truncate P k (pois_vec n c) w = (Panic p, vv_default, w).
Proof.
  apply dispatch_pois; [reflexivity|]. cbn [vv_elem pois_vec e_size]. rewrite umul_0_r. cbn [with_val].
  eexists. split; [reflexivity|exact I].
Qed.

Lemma vv_rotate_pois n c k w :
  (exists p, vv_rotate_left P k (pois_vec n c) w = (Panic p, vv_default, w)) /\
  (exists p, vv_rotate_right P k (pois_vec n c) w = (Panic p, vv_default, w)).
Proof.
  split; (apply dispatch_pois; [reflexivity|]; cbn [vv_elem pois_vec e_size]; rewrite umul_0_r;
    cbn [with_val]; eexists; split; [reflexivity|exact I]).
Qed.

(** What a call on a poisoned buffer gives. *)
Inductive pois_post (vt : V) (w : world) : outcome obs * veccopy V * world -> Prop :=
| PP o n c w' : safe o -> (forall l, Owns w l -> Owns w' l) ->
    pois_post vt w (o, VecCopy (pois_vec n c) vt, w').

Lemma pois_same vt n c w o : safe o -> pois_post vt w (o, VecCopy (pois_vec n c) vt, w).
Proof. intros. now apply PP. Qed.

Lemma pois_dead vt w p : pois_post vt w (Panic p, VecCopy vv_default vt, w).
Proof. apply (PP vt w (Panic p) 0 usize_max); [exact I|auto]. Qed.

Definition pois_slice (vt : V) : slicecopy V := SliceCopy [] (ElemInfo unit_id 0 1) vt.

Lemma vc_as_slice_pois n c vt :
  vc_as_slice P (VecCopy (pois_vec n c) vt) = Ret (pois_slice vt).
Proof.
  unfold vc_as_slice. cbn [vc_data pois_vec vv_len vv_elem vv_bytes vc_vtable].
  change (num_bytes (ElemInfo unit_id 0 1)) with 0. now rewrite umul_0_r.
Qed.

Lemma with_mut_slice_pois {A} (k : A -> obs) n c vt w (f : slicecopy V -> outcome A * slicecopy V) :
  (exists o, f (pois_slice vt) = (o, pois_slice vt) /\ safe o) ->
  pois_post vt w (noworld k (vc_with_mut_slice P f (VecCopy (pois_vec n c) vt)) w).
Proof.
  intros (o & Hf & Ho). unfold vc_with_mut_slice. rewrite vc_as_slice_pois, Hf.
  unfold noworld. change (vv_splice 0 _ _) with (pois_vec n c). apply pois_same.
  apply safe_bind; [exact Ho|]. intros; exact I.
Qed.

Lemma sl_len_pois vt : sl_len P (pois_slice vt) = Panic PDivZero.
Proof. unfold sl_len. destruct (debug_assertions P); reflexivity. Qed.

Lemma index_byte_range_0 i : exists o, index_byte_range P 0 i = o /\ (o = Ret (0, 0) \/ exists p, o = Panic p).
Proof.
  eexists. split; [reflexivity|]. unfold index_byte_range. rewrite umul_0_r. cbn [obind]. unfold uadd.
  destruct (_ <=? _); cbn [obind]; [rewrite umul_0_r; auto|].
  destruct (overflow_checks P); cbn [obind]; [eauto|rewrite umul_0_r; auto].
Qed.

Lemma slm_swap_pois vt i j : exists o, slm_swap P i j (pois_slice vt) = (o, pois_slice vt) /\ safe o.
Proof.
  unfold slm_swap. destruct (i =? j); [eexists; split; [reflexivity|exact I]|].
  change (sl_element_size (pois_slice vt)) with 0. cbv zeta.
  destruct (index_byte_range_0 0) as (? & -> & [->|[p ->]]); cbn [obind retype];
    [|eexists; split; [reflexivity|exact I]].
  destruct (index_byte_range_0 (if i <? j then i else j)) as (? & -> & [->|[p ->]]); cbn [obind retype];
    [|eexists; split; [reflexivity|exact I]].
  rewrite umul_0_l. cbn. eexists. split; [reflexivity|exact I].
Qed.

Lemma copy_into_vec_pois n c vt t w :
  pois_post vt w (run_call P G build (SCopyIntoVec t) (VecCopy (pois_vec n c) vt) w).
Proof.
  cbn [run_call]. unfold vc_copy_into_vec, vc_append_copy_to_vec, vc_as_slice_as, vc_check, vc_len,
    vc_element_type_id. cbn [vc_data pois_vec vv_elem e_type_id vv_len vv_bytes].
  destruct (t =? unit_id) eqn:E.
  - apply N.eqb_eq in E as ->. rewrite read_vals_unit. cbn [obind].
    rewrite (wf_unit_size G HG), (wf_unit_align G HG).
    assert (Hr : forall k, v_reserve 0 1 k svec_nil w = (Ret tt, svec_nil, w) \/
                           v_reserve 0 1 k svec_nil w = (Panic PCapacity, svec_nil, w)).
    { intros k. unfold v_reserve. destruct (_ <? _); auto. }
    destruct (Hr n) as [-> | ->].
    + match goal with |- context [v_reserve 0 1 ?k svec_nil w] => destruct (Hr k) as [-> | ->] end.
      * rewrite encs_unit. change (v_bytes svec_nil ++ []) with (@nil mbyte).
        change (v_blk svec_nil) with (@None N). unfold vec_elems. cbn [v_len v_bytes].
        rewrite read_vals_unit, vec_drop_unit. now apply pois_same.
      * cbn [retype]. change svec_nil with (SVec None 0 0 []). rewrite vec_drop_unit. now apply pois_same.
    + cbn [retype]. change svec_nil with (SVec None 0 0 []). rewrite vec_drop_unit. now apply pois_same.
  - cbn [obind]. rewrite vec_drop_nil. now apply pois_same.
Qed.

Lemma push_as_pois n c vt t v w :
  pois_post vt w (run_call P G build (SPushAs t v) (VecCopy (pois_vec n c) vt) w).
Proof.
  cbn [run_call]. unfold vc_push_as, vc_check, vc_element_type_id.
  cbn [vc_data pois_vec vv_elem e_type_id]. destruct (t =? unit_id) eqn:E.
  - apply N.eqb_eq in E as ->. unfold on_data. cbn [vc_data vc_vtable]. unfold apply_unchecked, into_vec_unchecked.
    cbn [pois_vec vv_elem e_alignment vv_blk vv_len vv_cap vv_bytes].
    change (num_bytes (ElemInfo unit_id 0 1)) with 0. rewrite (wf_unit_size G HG), (wf_unit_align G HG).
    rewrite !debug_assert_true by reflexivity. cbn [obind].
    rewrite enc_nil by apply (wf_unit_size G HG). unfold v_push. cbn [v_len].
    destruct (n =? v_capacity 0 _).
    + unfold v_grow. cbn [N.eqb]. unfold drop_val. rewrite (wf_unit_copy G HG). cbn [unwind].
      rewrite vec_drop_unit. cbn [unwind full obind]. apply pois_dead.
    + cbn [v_blk v_len v_cap v_bytes app]. unfold vv_from_vec, into_valid_vec.
      rewrite (wf_unit_size G HG). change (v_capacity 0 _) with usize_max.
      change (usize_max =? 0) with false. cbn iota beta. cbn [v_blk v_len v_bytes full obind].
      unfold elem_new. rewrite (wf_unit_size G HG), (wf_unit_align G HG). change (0 / 1) with 0.
      apply (pois_same vt (n + 1) usize_max w). exact I.
  - unfold drop_val. destruct (t_copy (G t)); cbn [full obind]; [now apply pois_same|].
    apply PP.
    + destruct (t_drop_panics _ _ _); exact I.
    + intros l HO. now apply Owns_emit.
Qed.

Lemma vc_get_ref_pois i n k (vt : V) :
  (exists p, vc_get_ref P i (VecCopy (pois_vec n k) vt) = Panic p) \/
  vc_get_ref P i (VecCopy (pois_vec n k) vt) = Ret (CopyRef [] unit_id 1 vt).
Proof.
  unfold vc_get_ref, debug_assert. cbn [vc_data pois_vec vv_elem vv_bytes].
  change (num_bytes (ElemInfo unit_id 0 1)) with 0. rewrite umul_0_r.
  destruct (debug_assertions P); [destruct (_ <? _)|]; cbn [obind]; eauto.
Qed.

Lemma vc_get_mut_pois i n k (vt : V) :
  (exists p, vc_get_mut P i (VecCopy (pois_vec n k) vt) = Panic p) \/
  vc_get_mut P i (VecCopy (pois_vec n k) vt) = Ret (0, CopyMut [] unit_id 1 vt).
Proof.
  unfold vc_get_mut, debug_assert. cbn [vc_data pois_vec vv_elem vv_bytes].
  change (num_bytes (ElemInfo unit_id 0 1)) with 0. rewrite umul_0_r.
  destruct (debug_assertions P); [destruct (_ <? _)|]; cbn [obind]; eauto.
Qed.

Lemma vc_call_pois_any c n k (vt : V) w :
  call_typed G c -> (forall t v, c = SPush t v -> t_size (G t) <> 0) ->
  pois_post vt w (run_call P G build c (VecCopy (pois_vec n k) vt) w).
Proof.
  intros Hty Hin.
  assert (Htype : forall t, vc_check t (VecCopy (pois_vec n k) vt) = (t =? unit_id)) by reflexivity.
  destruct c.
  - now apply pois_same.
  - now apply pois_same.
  - now apply pois_same.
  - now apply pois_same.
  - cbn [run_call]. unfold vc_reserve, on_data, full. cbn [vc_data vc_vtable].
    destruct (vv_reserve_pois n k n0 w) as [p ->]. apply pois_dead.
  - cbn [run_call]. unfold vc_clear, on_data, full. cbn [vc_data vc_vtable].
    destruct (vv_clear_pois n k w) as [p ->]. apply pois_dead.
  - apply push_as_pois.
  - cbn [run_call]. unfold vc_resize. rewrite Htype. destruct (t =? unit_id); [|now apply pois_same].
    unfold vc_len. cbn [vc_data pois_vec vv_len]. fold (pois_vec n k). destruct (n <=? n0).
    + unfold vc_reserve, on_data. cbn [vc_data vc_vtable].
      destruct (vv_reserve_pois n k (n0 - n) w) as [p ->]. apply pois_dead.
    + unfold on_data. cbn [vc_data vc_vtable].
      destruct (vv_truncate_pois n k n0 w) as [p ->]. apply pois_dead.
  - cbn [run_call]. unfold vc_fill, vc_as_mut_slice_as. rewrite Htype.
    destruct (t =? unit_id) eqn:E; [|now apply pois_same]. apply N.eqb_eq in E as ->.
    cbn [vc_data pois_vec vv_bytes]. rewrite read_vals_unit, encs_unit. now apply pois_same.
  - cbn [run_call]. unfold vc_fill, vc_as_mut_slice_as. rewrite Htype.
    destruct (t =? unit_id) eqn:E; [|now apply pois_same]. apply N.eqb_eq in E as ->.
    cbn [vc_data pois_vec vv_bytes]. rewrite read_vals_unit, encs_unit. now apply pois_same.
  - cbn [run_call]. unfold vc_copy_from_slice. apply with_mut_slice_pois.
    unfold slm_copy_from_slice, slm_as_slice. rewrite sl_len_pois. cbn. eexists. split; [reflexivity|exact I].
  - cbn [run_call]. unfold vc_as_slice_as. rewrite Htype.
    destruct (t =? unit_id) eqn:E; [|now apply pois_same]. apply N.eqb_eq in E as ->.
    cbn [vc_data pois_vec vv_bytes]. rewrite read_vals_unit. now apply pois_same.
  - cbn [run_call]. unfold vc_get_as. unfold assert_. destruct (_ <? _); [|now apply pois_same].
    cbn [obind]. rewrite Htype. destruct (t =? unit_id) eqn:E; [|now apply pois_same].
    apply N.eqb_eq in E as ->. cbn [vc_data pois_vec vv_bytes]. rewrite (wf_unit_size G HG), !N.mul_0_r.
    unfold read_val, firstnN, skipnN. cbn. rewrite (wf_unit_size G HG). now apply pois_same.
  - cbn [run_call]. unfold vc_set_as. unfold assert_. destruct (_ <? _); [|now apply pois_same].
    rewrite Htype. destruct (t =? unit_id) eqn:E; [|now apply pois_same].
    apply N.eqb_eq in E as ->. cbn [vc_data pois_vec vv_bytes]. rewrite (wf_unit_size G HG), !N.mul_0_r.
    unfold read_val, firstnN, skipnN. cbn [N.to_nat firstn skipn]. unfold dec. rewrite (wf_unit_size G HG).
    rewrite enc_nil by apply (wf_unit_size G HG). now apply pois_same.
  - apply copy_into_vec_pois.
  - cbn [run_call]. unfold vc_rotate_left, on_data, full. cbn [vc_data vc_vtable].
    destruct (vv_rotate_pois n k k0 w) as [[p ->] _]. apply pois_dead.
  - cbn [run_call]. unfold vc_rotate_right, on_data, full. cbn [vc_data vc_vtable].
    destruct (vv_rotate_pois n k k0 w) as [_ [p ->]]. apply pois_dead.
  - cbn [run_call]. destruct (vc_get_ref_pois i n k vt) as [[p ->]| ->]; cbn [obind]; [now apply pois_same|].
    unfold cr_downcast, cr_is. cbn [cr_type_id cr_bytes]. destruct (unit_id =? t) eqn:E; [|now apply pois_same].
    apply N.eqb_eq in E as <-. unfold from_bytes, read_val, dec. rewrite (wf_unit_size G HG).
    now apply pois_same.
  - cbn [run_call]. unfold vc_get_mut_copy.
    destruct (vc_get_mut_pois i n k vt) as [[p ->]| ->]; [now apply pois_same|].
    unfold cm_copy. cbn [cm_type_id]. destruct (unit_id =? _) eqn:E; [|now apply pois_same].
    cbn [mk_ref copy_ref_new cr_type_id cr_bytes cm_bytes] in *. apply N.eqb_eq in E as <-.
    rewrite enc_nil by apply (wf_unit_size G HG). now apply pois_same.
  - cbn [run_call]. unfold vc_iter, vv_byte_chunks, vv_byte_slice.
    cbn [vc_data pois_vec vv_len vv_elem vv_bytes]. change (num_bytes (ElemInfo unit_id 0 1)) with 0.
    rewrite umul_0_r. now apply pois_same.
  - cbn [run_call]. unfold vc_iter_mut_copy, vv_byte_chunks_mut.
    cbn [vc_data pois_vec vv_len vv_elem vv_bytes]. change (num_bytes (ElemInfo unit_id 0 1)) with 0.
    rewrite umul_0_l. now apply pois_same.
  - cbn [run_call call_in_range] in *. unfold vc_push, mk_ref, copy_ref_new, cr_size. cbn [cr_bytes].
    rewrite enc_length. change (vc_element_size _) with 0.
    specialize (Hin t v eq_refl). apply N.eqb_neq in Hin. rewrite Hin.
    now apply pois_same.
  - cbn [run_call]. unfold vc_extend, vc_reserve, on_data. cbn [vc_data vc_vtable].
    destruct (vv_reserve_pois n k hint w) as [p ->]. apply pois_dead.
  - cbn [run_call]. apply with_mut_slice_pois. apply slm_swap_pois.
  - cbn [run_call]. apply with_mut_slice_pois. unfold slm_rotate_left.
    change (sl_element_size (pois_slice vt)) with 0. rewrite umul_0_r. eexists. split; [reflexivity|exact I].
  - cbn [run_call]. apply with_mut_slice_pois. unfold slm_rotate_right.
    change (sl_element_size (pois_slice vt)) with 0. rewrite umul_0_r. eexists. split; [reflexivity|exact I].
  - cbn [run_call]. rewrite vc_as_slice_pois. cbn [obind]. unfold sl_subslice, scale_range.
    change (sl_element_size (pois_slice vt)) with 0. rewrite !umul_0_r.
    cbn [obind]. change (index_with (RRange 0 0) (sl_data (pois_slice vt))) with (Ret (0, @nil mbyte)).
    cbn [obind fst snd].
    change (SliceCopy _ _ _) with (pois_slice vt). unfold sl_as_slice. rewrite sl_len_pois.
    destruct (sl_check t (pois_slice vt)); now apply pois_same.
  - cbn [run_call]. rewrite vc_as_slice_pois. cbn [obind]. unfold sl_split_at.
    change (num_bytes (sl_elem (pois_slice vt))) with 0. rewrite umul_0_r. cbn [obind].
    cbn [sl_data pois_slice fst snd sl_elem sl_vtable]. change (lenN []) with 0.
    cbn [N.leb N.compare obind fst snd].
    change (SliceCopy _ _ _) with (pois_slice vt). unfold sl_as_slice. rewrite sl_len_pois.
    destruct (sl_check t (pois_slice vt)); now apply pois_same.
Qed.

Lemma vc_call_pois c n k (vt : V) w :
  call_typed G c -> call_in_range P G c (VecCopy (pois_vec n k) vt) ->
  pois_post vt w (run_call P G build c (VecCopy (pois_vec n k) vt) w).
Proof.
  intros Hty Hin. apply vc_call_pois_any; [exact Hty|]. intros t v ->.
  destruct Hin as [H|H]; [exact H|]. now elim H.
Qed.

End Calls.
