(** * Specifications of the calls of VecCopy.v and SliceCopy.v. *)

From Verif Require Export VecVoidProofs PanicSpec Machine.

Lemma lenN_nth {A} (l : list A) i : i < lenN l -> exists x, nthN l i = Some x.
Proof.
  intros H. unfold nthN. destruct (nth_error l (N.to_nat i)) eqn:E; [eauto|].
  apply nth_error_None in E. unfold lenN in H. lia.
Qed.

Lemma nthN_none {A} (l : list A) i : lenN l <= i -> nthN l i = None.
Proof. intros H. apply nth_error_None. unfold lenN in H. lia. Qed.

Lemma nthN_some {A} (l : list A) i x : nthN l i = Some x -> i < lenN l.
Proof.
  intros H. assert (Hn : nth_error l (N.to_nat i) <> None) by (unfold nthN in H; congruence).
  apply nth_error_Some in Hn. unfold lenN. lia.
Qed.

(** Overwriting the bytes of element [i]. *)
Lemma splice_encs_one G t i v xs :
  i < lenN xs ->
  splice (i * t_size (G t)) (enc G t v) (encs G t xs) = encs G t (list_set xs (N.to_nat i) v).
Proof.
  intros Hi. unfold splice. rewrite enc_length.
  replace (i * t_size (G t) + t_size (G t)) with ((i + 1) * t_size (G t)) by lia.
  rewrite firstnN_encs, skipnN_encs.
  rewrite list_set_split by (unfold lenN in Hi; lia).
  rewrite encs_app, encs_cons. unfold firstnN, skipnN.
  replace (N.to_nat (i + 1)) with (S (N.to_nat i)) by lia. reflexivity.
Qed.

(** Overwriting a whole run of elements. *)
Lemma splice_encs G t a ys xs :
  a + lenN ys <= lenN xs ->
  splice (a * t_size (G t)) (encs G t ys) (encs G t xs) =
  encs G t (firstnN a xs ++ ys ++ skipnN (a + lenN ys) xs).
Proof.
  intros Ha. unfold splice. rewrite encs_length, <- N.mul_add_distr_r.
  rewrite firstnN_encs, skipnN_encs, !encs_app. reflexivity.
Qed.

Lemma splice_all bs l : lenN bs = lenN l -> splice 0 bs l = bs.
Proof.
  intros H. unfold splice. rewrite firstnN_0, skipnN_all by lia. cbn. apply app_nil_r.
Qed.

Section Specs.
Context {V : Type} (P : profile) (G : tenv) (HG : wf_tenv G) (build : tyid -> V).

Notation own b := (vv_own (vc_data b)).

Lemma rep_num_bytes t d xs : Rep G t d xs -> num_bytes (vv_elem d) = t_size (G t).
Proof. intros H. rewrite (rep_elem _ _ _ _ H). now apply num_bytes_new. Qed.

Lemma rep_type t d xs : Rep G t d xs -> e_type_id (vv_elem d) = t.
Proof. intros H. now rewrite (rep_elem _ _ _ _ H). Qed.

Lemma rep_not_unit t d xs : Rep G t d xs -> t <> unit_id.
Proof. intros H ->. apply (rep_sized _ _ _ _ H). apply HG. Qed.

(** A buffer whose bytes changed but nothing else. *)
Lemma rep_with_bytes t d xs ys :
  Rep G t d xs -> lenN ys = lenN xs ->
  Rep G t (VecVoid (vv_blk d) (vv_len d) (vv_cap d) (vv_elem d) (encs G t ys)) ys.
Proof.
  intros H HL. split; cbn; try apply H.
  - rewrite HL. apply H.
  - reflexivity.
  - rewrite HL. apply H.
Qed.

(** ** Results of a call *)

Inductive call_post (c : call) (t : tyid) (xs : list payload) (l : list block) (b : veccopy V)
    (w : world) (spec : option (obs * list payload))
  : outcome obs * veccopy V * world -> Prop :=
| CP_ret a ys b' w' :
    spec = Some (a, ys) -> Rep G t (vc_data b') ys -> vc_vtable b' = vc_vtable b ->
    Owns w' (own b' ++ l) -> call_post c t xs l b w spec (Ret a, b', w')
| CP_same p w' :
    panics_kept G c t xs -> Owns w' (own b ++ l) -> call_post c t xs l b w spec (Panic p, b, w')
| CP_prefix p hint vals t1 v1 rest b' w' :
    c = SExtend hint (vals ++ (t1, v1) :: rest) -> same_type t vals = true -> t1 <> t ->
    Rep G t (vc_data b') (xs ++ map snd vals) -> Owns w' (own b' ++ l) ->
    call_post c t xs l b w spec (Panic p, b', w')
| CP_poison p b' w' leak :
    panics_lost G c t xs -> Poisoned (vc_data b') -> Owns w' (leak ++ l) ->
    call_post c t xs l b w spec (Panic p, b', w').

(** ** Reserving with any argument *)

(** Rebuilding with an arbitrary capacity either works or fails the assertion. *)
Lemma override_any t xs b c :
  t_size (G t) <> 0 -> lenN xs * chunks_of G t <= c -> chunks_of G t <= c ->
  c * t_align (G t) <= max_alloc (t_align (G t)) -> b <> None ->
  (exists d, from_vec_override P (t_align (G t))
               (SVec b (lenN xs * chunks_of G t) c (encs G t xs)) (elem_new G t) = Ret d /\
             Rep G t d xs /\ vv_own d = owned b (c * t_align (G t)) (t_align (G t)) /\
             vv_cap d * chunks_of G t = c) \/
  from_vec_override P (t_align (G t))
    (SVec b (lenN xs * chunks_of G t) c (encs G t xs)) (elem_new G t) = Panic PAssert.
Proof.
  intros Hz Hlen Hk Hmax Hb. pose proof (chunks_pos G HG t Hz) as Hp.
  pose proof (wf_align_pos G t HG) as Ha. pose proof (chunks_size G HG t) as Hs.
  destruct (N.eq_dec (c mod chunks_of G t) 0) as [E|E].
  - left. apply N.div_exact in E; [|lia]. set (q := c / chunks_of G t) in *.
    destruct (rebuild P G HG t xs b q) as (HE & HR & HO); try assumption; try nia.
    rewrite N.mul_comm in E. rewrite E in *. eexists. csplit; try exact HE; try exact HR.
    + rewrite HO. f_equal. rewrite Hs. lia.
    + reflexivity.
  - right. unfold from_vec_override. cbn [elem_new e_alignment e_size v_len v_cap v_blk v_bytes].
    fold (chunks_of G t). rewrite assert_true by apply N.eqb_refl. cbn [obind].
    rewrite v_capacity_sized by lia. cbn [v_cap]. rewrite assert_true by now apply N.leb_le.
    cbn [obind]. rewrite N.div_same by lia.
    assert (Hcu : c <= usize_max).
    { pose proof (max_alloc_le (t_align (G t))). pose proof isize_lt_usize. nia. }
    rewrite !umul_ok by lia. cbn [obind]. rewrite !N.mul_1_r. unfold umod, udiv.
    destruct (chunks_of G t =? 0) eqn:E0; [apply N.eqb_eq in E0; lia|]. cbn [obind].
    rewrite N.mod_mul by lia. cbn [assert_ N.eqb obind].
    apply N.eqb_neq in E. now rewrite E.
Qed.

Inductive vv_post (t : tyid) (d : vecvoid) (w : world) (l : list block) (ys : list payload)
  : outcome unit * vecvoid * world -> Prop :=
| VP_ret d' w' :
    Rep G t d' ys -> Owns w' (vv_own d' ++ l) -> w_trace w' = w_trace w ->
    vv_post t d w l ys (Ret tt, d', w')
| VP_same p : vv_post t d w l ys (Panic p, d, w)
| VP_poison p d' w' leak :
    Poisoned d' -> Owns w' (leak ++ l) -> w_trace w' = w_trace w ->
    vv_post t d w l ys (Panic p, d', w').

Lemma vv_reserve_any t d xs n w l :
  Rep G t d xs -> Owns w (vv_own d ++ l) -> vv_post t d w l xs (vv_reserve P n d w).
Proof.
  intros H HO.
  destruct (N.le_gt_cases (n * chunks_of G t) usize_max) as [Hn|Hn].
  - pose proof (vv_reserve_rep P G HG t d xs n w l H HO Hn) as HR. inversion HR; subst.
    + now apply VP_ret.
    + now apply VP_ret.
    + apply (VP_poison _ _ _ _ _ _ _ _ []); try assumption. apply vv_default_poisoned.
    + apply (VP_poison _ _ _ _ _ _ _ _ [(i, (8, 1))]); try assumption. apply vv_default_poisoned.
  - unfold vv_reserve. rewrite (dispatch_rep P G HG t d xs) by exact H.
    rewrite (rep_elem _ _ _ _ H). change (e_size (elem_new G t)) with (chunks_of G t).
    unfold with_val. rewrite umul_over by exact Hn.
    pose proof (carrier_ok G HG t d xs H) as Hok.
    assert (HO' : Owns w (v_own (t_align (G t)) (t_align (G t)) (carrier G t d) ++ l)).
    { now rewrite (carrier_own G HG t d xs H). }
    destruct (overflow_checks P) eqn:EP.
    + cbn [retype].
      destruct (v_drop_ok (t_align (G t)) (t_align (G t)) (carrier G t d) w l) as (w' & -> & HO2 & Ht).
      { apply Hok. } { exact HO'. }
      cbn [unwind]. apply (VP_poison _ _ _ _ _ _ _ _ []); try assumption. apply vv_default_poisoned.
    + pose proof (wf_align_pos G t HG) as Ha.
      pose proof (rep_cap1 _ _ _ _ H) as Hc1. pose proof (rep_cap _ _ _ _ H) as Hcap.
      pose proof (rep_len _ _ _ _ H) as HL.
      pose proof (chunks_pos G HG t (rep_sized _ _ _ _ H)) as Hp.
      destruct (v_reserve_spec (t_align (G t)) (t_align (G t)) (wrap (n * chunks_of G t))
                  (carrier G t d) w l) as [[Hle HE]|[Hgt [HE|[HE Hc]]]]; try assumption.
      { lia. }
      * rewrite HE. unfold carrier. rewrite HL, (rep_bytes _ _ _ _ H).
        destruct (rebuild P G HG t xs (vv_blk d) (vv_cap d)) as (HF & HR & HOw); try apply H.
        rewrite HF. apply VP_ret; try assumption; [|reflexivity].
        rewrite HOw, <- (rep_own G HG t d xs H). exact HO.
      * destruct HE as (b & w' & HE & Hm & _ & Hpt & HO2 & Ht). rewrite HE.
        set (c := grow_cap _ _ _) in *. cbn [carrier v_len v_bytes].
        rewrite HL, (rep_bytes _ _ _ _ H).
        assert (Hc : chunks_of G t <= c).
        { unfold c, grow_cap. cbn [carrier v_cap v_len]. nia. }
        assert (Hlc : lenN xs * chunks_of G t <= c).
        { unfold c, grow_cap. cbn [carrier v_cap v_len]. rewrite HL. lia. }
        destruct (override_any t xs b c) as [(d' & -> & HR & HOw & _)|HEr]; try assumption; try apply H.
        { apply Hpt. nia. }
        -- apply VP_ret; try assumption. now rewrite HOw.
        -- rewrite HEr. cbn [retype].
           apply (VP_poison _ _ _ _ _ _ _ _ (owned b (c * t_align (G t)) (t_align (G t))));
             try assumption. apply vv_default_poisoned.
      * rewrite HE.
        destruct (v_drop_ok (t_align (G t)) (t_align (G t)) (carrier G t d) w l) as (w' & -> & HO2 & Ht).
        { apply Hok. } { exact HO'. }
        cbn [unwind]. apply (VP_poison _ _ _ _ _ _ _ _ []); try assumption. apply vv_default_poisoned.
Qed.

(** ** When there is no room *)

Lemma min_cap_small e k size a :
  e <> 0 -> e <= size -> 1 <= k -> legal_align a ->
  max_alloc a < N.max (min_non_zero_cap e * e) (k * size) -> max_alloc a < k * size.
Proof.
  intros He Hs Hk Ha H.
  assert (Hb : 8192 <= max_alloc a).
  { destruct Ha as (j & Hj & ->). unfold max_alloc, isize_max.
    assert (2 ^ j <= 2 ^ 29) by (apply N.pow_le_mono_r; lia).
    change (2 ^ 29) with 536870912 in *. change (2 ^ 63) with 9223372036854775808. lia. }
  assert (Hk' : size <= k * size) by nia.
  destruct (min_non_zero_cap_cases e) as [[-> E]|[(_ & Hle & E)|[_ E]]]; rewrite E in H; lia.
Qed.

Lemma wf_legal t : legal_align (t_align (G t)).
Proof using HG. apply (wf_types G HG t). Qed.

Lemma no_room_of t d xs need e :
  Rep G t d xs -> e <> 0 -> e <= t_size (G t) -> vv_cap d < need ->
  max_alloc (t_align (G t)) <
    N.max (min_non_zero_cap e * e) (N.max (vv_cap d * 2) need * t_size (G t)) ->
  no_room G t (lenN xs) need.
Proof using HG.
  intros HR He Hes Hlt Hm. exists (vv_cap d). pose proof (rep_max _ _ _ _ HR).
  split; [apply (rep_cap _ _ _ _ HR)|]. unfold PanicSpec.too_big. fold (max_alloc (t_align (G t))).
  split; [lia|]. split; [exact Hlt|]. rewrite (N.mul_comm 2).
  eapply min_cap_small; [exact He|exact Hes| |apply wf_legal|exact Hm]. lia.
Qed.

Lemma align_le_size t : t_size (G t) <> 0 -> t_align (G t) <= t_size (G t).
Proof using HG.
  intros Hz. pose proof (chunks_size G HG t). pose proof (chunks_pos G HG t Hz). nia.
Qed.

Lemma odd_of t d xs need :
  Rep G t d xs -> bad_growth G t (vv_cap d) need -> odd_growth_to G t (lenN xs) need.
Proof.
  intros HR (H1 & H2 & H3 & H4). pose proof (rep_cap _ _ _ _ HR). unfold odd_growth_to.
  csplit; try assumption. lia.
Qed.

(** An amount of room whose size in carriers wraps around does not fit. *)
Lemma over_no_room t d xs n :
  Rep G t d xs -> usize_max < n * chunks_of G t -> no_room G t (lenN xs) (lenN xs + n).
Proof using HG.
  intros H Hn. pose proof (rep_sized _ _ _ _ H) as Hz. pose proof (rep_cap _ _ _ _ H) as Hcl.
  exists (vv_cap d). pose proof (rep_max _ _ _ _ H). pose proof (max_alloc_le (t_align (G t))).
  pose proof isize_lt_usize. pose proof (chunks_le_size G HG t n).
  unfold PanicSpec.too_big. fold (max_alloc (t_align (G t))). csplit; nia.
Qed.

(** Reserving leaves the vector as it was, or, if there is no room, poisoned. *)
Lemma vv_reserve_left t d xs n w l :
  Rep G t d xs -> Owns w (vv_own d ++ l) ->
  (exists d' w', vv_reserve P n d w = (Ret tt, d', w') /\ Rep G t d' xs /\
     Owns w' (vv_own d' ++ l) /\ w_trace w' = w_trace w /\
     (n * chunks_of G t <= usize_max -> lenN xs + n <= vv_cap d')) \/
  (exists p d' w' leak, vv_reserve P n d w = (Panic p, d', w') /\ Poisoned d' /\
     Owns w' (leak ++ l) /\ w_trace w' = w_trace w /\
     (no_room G t (lenN xs) (lenN xs + n) \/ odd_growth_to G t (lenN xs) (lenN xs + n))).
Proof using HG.
  intros H HO. pose proof (rep_sized _ _ _ _ H) as Hz. pose proof (rep_cap _ _ _ _ H) as Hcl.
  destruct (N.le_gt_cases (n * chunks_of G t) usize_max) as [Hn|Hn].
  - pose proof (vv_reserve_rep P G HG t d xs n w l H HO Hn) as HR.
    remember (vv_reserve P n d w) as r eqn:Er. clear Er.
    destruct HR as [Hle|d' w' Hlt HR' Hc1 Hc2 HO' Ht _|w' Hlt Hm HO' Ht|w' i Hb HO' Ht].
    + left. do 2 eexists. csplit; eauto; intros; lia.
    + left. do 2 eexists. csplit; eauto; intros; lia.
    + right. exists PCapacity, vv_default, w', []. csplit; auto using vv_default_poisoned.
      left. eapply no_room_of; [exact H| | |exact Hlt|exact Hm].
      * pose proof (wf_align_pos G t HG). lia.
      * apply align_le_size. exact Hz.
    + right. exists PAssert, vv_default, w', [(i, (8, 1))]. csplit; auto using vv_default_poisoned.
      right. eapply odd_of; eassumption.
  - assert (Hroom : no_room G t (lenN xs) (lenN xs + n)).
    { now apply (over_no_room t d). }
    pose proof (vv_reserve_any t d xs n w l H HO) as HR.
    remember (vv_reserve P n d w) as r eqn:Er.
    destruct HR as [d' w' HR' HO' Ht|p|p d' w' leak HP HO' Ht].
    + left. do 2 eexists. csplit; eauto; intros; lia.
    + right. assert (Hd : d = vv_default).
      { revert Er. unfold vv_reserve. rewrite (dispatch_rep P G HG t d xs) by exact H.
        destruct (with_val _ _ _ _) as [[[a|p0|u|] v'] w']; intros Er.
        - destruct (from_vec_override _ _ _ _); congruence.
        - destruct (v_drop_nodrop _ _ _ _). congruence.
        - discriminate Er.
        - discriminate Er. }
      rewrite Hd in *. exists p, vv_default, w, []. csplit; auto using vv_default_poisoned.
    + right. exists p, d', w', leak. csplit; auto.
Qed.

(** ** push_as *)

Lemma into_vec_unchecked_rep t d xs :
  Rep G t d xs ->
  into_vec_unchecked P G t d = Ret (SVec (vv_blk d) (lenN xs) (vv_cap d) (encs G t xs)).
Proof.
  intros H. unfold into_vec_unchecked. rewrite (rep_num_bytes _ _ _ H), (rep_elem _ _ _ _ H).
  rewrite !debug_assert_true by apply N.eqb_refl. cbn [obind].
  now rewrite (rep_len _ _ _ _ H), (rep_bytes _ _ _ _ H).
Qed.

Lemma typed_ok t d xs :
  Rep G t d xs ->
  svec_ok (t_size (G t)) (t_align (G t)) (SVec (vv_blk d) (lenN xs) (vv_cap d) (encs G t xs)).
Proof. intros H. split; cbn; try apply H. intros _. apply H. Qed.

(** A typed vector of [c >= 1] elements turned into a buffer. *)
Lemma vv_from_vec_ok t b xs c w :
  t_size (G t) <> 0 -> lenN xs <= c -> 1 <= c -> c * t_size (G t) <= max_alloc (t_align (G t)) ->
  b <> None ->
  let d := VecVoid b (lenN xs) c (elem_new G t) (encs G t xs) in
  vv_from_vec G t (SVec b (lenN xs) c (encs G t xs)) w = (Ret d, w) /\ Rep G t d xs /\
  vv_own d = owned b (c * t_size (G t)) (t_align (G t)).
Proof.
  intros Hz Hl Hc Hm Hb d. csplit.
  - unfold vv_from_vec, into_valid_vec. rewrite v_capacity_sized by exact Hz. cbn [v_cap].
    destruct (c =? 0) eqn:E; [apply N.eqb_eq in E; lia|].
    rewrite v_capacity_sized by exact Hz. reflexivity.
  - now split.
  - unfold vv_own, d. cbn. now rewrite num_bytes_new.
Qed.

(** Dropping a typed vector of [Copy] values. *)
Lemma drop_vals_copy t vs w : t_copy (G t) = true -> drop_vals G t vs w = (Ret tt, w).
Proof.
  intros H. induction vs as [|v vs IH]; [reflexivity|]. cbn [drop_vals]. unfold drop_val.
  now rewrite H.
Qed.

Lemma vec_drop_copy t b c xs w l :
  t_copy (G t) = true -> t_size (G t) <> 0 -> ptr_ok b (c * t_size (G t)) ->
  Owns w (owned b (c * t_size (G t)) (t_align (G t)) ++ l) ->
  exists w', vec_drop G t (SVec b (lenN xs) c (encs G t xs)) w = (Ret tt, w') /\ Owns w' l /\
             w_trace w' = w_trace w.
Proof.
  intros Hc Hz Hp HO. unfold vec_drop, vec_elems. cbn [v_len v_bytes].
  rewrite read_vals_encs' by exact Hz. rewrite drop_vals_copy by exact Hc.
  now apply v_drop_ok.
Qed.

(** src/vec_copy.rs:322-332 with the stored type: either the value is appended or std reports a
    capacity overflow. *)
Inductive push_as_result (t : tyid) (d : vecvoid) (xs : list payload) (v : payload) (w : world)
    (l : list block) : outcome unit * vecvoid * world -> Prop :=
| PA_ok d' w' :
    Rep G t d' (xs ++ [v]) -> Owns w' (vv_own d' ++ l) -> w_trace w' = w_trace w ->
    vv_cap d <= vv_cap d' ->
    (lenN xs + 1 <= vv_cap d -> w' = w /\ vv_cap d' = vv_cap d /\ vv_blk d' = vv_blk d) ->
    push_as_result t d xs v w l (Ret tt, d', w')
| PA_capacity o w' :
    vv_cap d = lenN xs ->
    max_alloc (t_align (G t)) <
      N.max (min_non_zero_cap (t_size (G t))) (N.max (vv_cap d * 2) (lenN xs + 1)) * t_size (G t) ->
    (t_copy (G t) = true -> o = Panic PCapacity /\ Owns w' l /\ w_trace w' = w_trace w) ->
    push_as_result t d xs v w l (o, vv_default, w').

Definition push_closure (t : tyid) (v : payload) (sv : svec) (w : world)
  : outcome unit * svec * world :=
  let '(o, sv', w') := v_push (t_size (G t)) (t_align (G t)) (enc G t v) sv w in
  match o with
  | Panic p => let '(o2, w2) := drop_val G t v w' in (unwind p o2, sv', w2)
  | _ => (o, sv', w')
  end.

Lemma push_as_rep t d xs v w l :
  Rep G t d xs -> Owns w (vv_own d ++ l) ->
  push_as_result t d xs v w l (apply_unchecked P G t (push_closure t v) d w).
Proof.
  intros H HO. unfold apply_unchecked. rewrite (into_vec_unchecked_rep _ _ _ H).
  pose proof (rep_sized _ _ _ _ H) as Hz. unfold push_closure, v_push.
  rewrite v_capacity_sized by exact Hz. cbn [v_len v_cap].
  pose proof (typed_ok _ _ _ H) as Hok.
  assert (HO' : Owns w (v_own (t_size (G t)) (t_align (G t))
                          (SVec (vv_blk d) (lenN xs) (vv_cap d) (encs G t xs)) ++ l)).
  { unfold v_own. cbn. now rewrite <- (rep_own G HG t d xs H). }
  assert (Hlen : lenN (xs ++ [v]) = lenN xs + 1) by (rewrite lenN_app; reflexivity).
  assert (Henc : encs G t xs ++ enc G t v = encs G t (xs ++ [v])) by now rewrite encs_app, encs_one.
  destruct (lenN xs =? vv_cap d) eqn:E.
  - apply N.eqb_eq in E.
    destruct (v_grow_spec (t_size (G t)) (t_align (G t)) 1 _ w l Hz Hok HO')
      as [(b & w' & HE & Hm & _ & Hpt & HO2 & Ht)|[HE Hcap]]; rewrite HE.
    + set (c := grow_cap _ _ _) in *. cbn [v_blk v_len v_cap v_bytes].
      assert (Hc : lenN xs + 1 <= c).
      { unfold c, grow_cap. cbn [v_cap v_len]. lia. }
      rewrite Henc, <- Hlen.
      destruct (vv_from_vec_ok t b (xs ++ [v]) c w') as (HF & HR & HOw); try assumption; try lia.
      { apply Hpt. nia. }
      rewrite HF. apply PA_ok; try assumption; cbn; try lia. now rewrite HOw.
    + destruct (drop_val G t v w) as [o2 w2] eqn:ED.
      destruct (unwind PCapacity o2) as [[]|p|u|] eqn:EU.
      * destruct o2; discriminate.
      * destruct (vec_drop _ _ _ _) as [o3 w3] eqn:E3.
        apply PA_capacity; [lia| |].
        -- cbn [v_cap v_len] in Hcap. unfold grow_cap in Hcap. cbn [v_cap v_len] in Hcap.
           destruct Hcap as [Hcap|Hcap]; [|exact Hcap].
           pose proof (rep_max _ _ _ _ H). pose proof (max_alloc_le (t_align (G t))).
           pose proof isize_lt_usize.
           assert (isize_max < usize_max) by (vm_compute; reflexivity). nia.
        -- intros Hc. unfold drop_val in ED. rewrite Hc in ED. injection ED as <- <-.
           cbn in EU. injection EU as <-.
           destruct (vec_drop_copy t (vv_blk d) (vv_cap d) xs w l) as (w4 & HD & HO4 & Ht4); try assumption.
           { intros _. apply H. }
           rewrite HD in E3. injection E3 as <- <-. auto.
      * apply PA_capacity; [lia| |].
        -- unfold grow_cap in Hcap. cbn [v_cap v_len] in Hcap.
           destruct Hcap as [Hcap|Hcap]; [|exact Hcap].
           pose proof (rep_max _ _ _ _ H). pose proof (max_alloc_le (t_align (G t))).
           assert (isize_max < usize_max) by (vm_compute; reflexivity). nia.
        -- intros Hc. unfold drop_val in ED. rewrite Hc in ED. injection ED as <- <-. discriminate.
      * apply PA_capacity; [lia| |].
        -- unfold grow_cap in Hcap. cbn [v_cap v_len] in Hcap.
           destruct Hcap as [Hcap|Hcap]; [|exact Hcap].
           pose proof (rep_max _ _ _ _ H). pose proof (max_alloc_le (t_align (G t))).
           assert (isize_max < usize_max) by (vm_compute; reflexivity). nia.
        -- intros Hc. unfold drop_val in ED. rewrite Hc in ED. injection ED as <- <-. discriminate.
  - apply N.eqb_neq in E. cbn [v_blk v_len v_cap v_bytes]. rewrite Henc, <- Hlen.
    pose proof (rep_cap _ _ _ _ H).
    destruct (vv_from_vec_ok t (vv_blk d) (xs ++ [v]) (vv_cap d) w) as (HF & HR & HOw); try apply H.
    { lia. }
    rewrite HF. apply PA_ok; try assumption; cbn; try lia; auto.
    now rewrite HOw, <- (rep_own G HG t d xs H).
Qed.

Lemma vc_check_rep t d xs (vt : V) t' : Rep G t d xs -> vc_check t' (VecCopy d vt) = (t' =? t).
Proof. intros H. unfold vc_check, vc_element_type_id. cbn. now rewrite (rep_type _ _ _ H). Qed.

Lemma vc_push_as_eq t d (vt : V) xs v w :
  Rep G t d xs ->
  vc_push_as P G t v (VecCopy d vt) w =
  let '(o, d', w') := apply_unchecked P G t (push_closure t v) d w in
  (let! _ := o in Ret true, VecCopy d' vt, w').
Proof.
  intros H. unfold vc_push_as. rewrite (vc_check_rep _ _ _ _ _ H), N.eqb_refl.
  unfold on_data. cbn [vc_data vc_vtable].
  change (fun sv w0 =>
    let '(o0, sv', w'0) := v_push (t_size (G t)) (t_align (G t)) (enc G t v) sv w0 in
    match o0 with
    | Panic p => let '(o2, w2) := drop_val G t v w'0 in (unwind p o2, sv', w2)
    | _ => (o0, sv', w'0)
    end) with (push_closure t v).
  destruct (apply_unchecked _ _ _ _ _ _) as [[o d'] w']. reflexivity.
Qed.

(** Pushing [n] values into reserved space. *)
Lemma vc_push_n_rep n t d (vt : V) xs v w l :
  Rep G t d xs -> Owns w (vv_own d ++ l) -> lenN xs + N.of_nat n <= vv_cap d ->
  exists d', vc_push_n P G n t v (VecCopy d vt) w = (Ret tt, VecCopy d' vt, w) /\
    Rep G t d' (xs ++ repeat v n) /\ vv_cap d' = vv_cap d /\ vv_blk d' = vv_blk d /\
    Owns w (vv_own d' ++ l).
Proof.
  revert d xs. induction n as [|n IH]; intros d xs H HO Hc.
  - exists d. cbn. rewrite app_nil_r. auto.
  - cbn [vc_push_n]. rewrite (vc_push_as_eq _ _ _ _ _ _ H).
    pose proof (push_as_rep t d xs v w l H HO) as HP.
    destruct (apply_unchecked _ _ _ _ _ _) as [[o d1] w1].
    inversion HP as [d1' w1' HR1 HO1 Ht1 Hc1 Hsame|o' w1' Hc1 Hm1 _]; subst.
    + destruct Hsame as (-> & Hcap & Hblk); [lia|]. cbn [obind].
      destruct (IH d1 (xs ++ [v]) HR1 HO1) as (d' & HE & HR & HC & HB & HOd).
      { rewrite lenN_app, Hcap. change (lenN [v]) with 1. lia. }
      exists d'. rewrite <- app_assoc in HR. cbn [app] in HR. csplit; try assumption; congruence.
    + lia.
Qed.

(** ** Typed access *)

Lemma as_slice_as_rep t d (vt : V) xs t' :
  Rep G t d xs ->
  vc_as_slice_as G t' (VecCopy d vt) = Ret (typed t' t xs).
Proof.
  intros H. unfold vc_as_slice_as, typed. rewrite (vc_check_rep _ _ _ _ _ H).
  destruct (t' =? t) eqn:E; [|reflexivity]. apply N.eqb_eq in E as ->.
  unfold vc_len. cbn [vc_data]. rewrite (rep_len _ _ _ _ H), (rep_bytes _ _ _ _ H).
  now rewrite read_vals_encs' by apply H.
Qed.

(** A buffer with the same block and other contents of the same length. *)
Definition with_vals (t : tyid) (d : vecvoid) (ys : list payload) : vecvoid :=
  VecVoid (vv_blk d) (vv_len d) (vv_cap d) (vv_elem d) (encs G t ys).

Lemma with_vals_rep t d xs ys :
  Rep G t d xs -> lenN ys = lenN xs -> Rep G t (with_vals t d ys) ys.
Proof. apply rep_with_bytes. Qed.

Lemma with_vals_own t d ys : vv_own (with_vals t d ys) = vv_own d.
Proof. reflexivity. Qed.

Lemma lenN_mapi {A B} (f : nat -> A -> B) l : lenN (mapi f l) = lenN l.
Proof. unfold lenN. now rewrite mapi_length. Qed.

Lemma lenN_list_set {A} (l : list A) i x : lenN (list_set l i x) = lenN l.
Proof. unfold lenN. now rewrite list_set_length. Qed.

Lemma as_mut_slice_as_rep t d (vt : V) xs t' f :
  Rep G t d xs ->
  vc_as_mut_slice_as G t' f (VecCopy d vt) =
  if t' =? t then (Ret true, VecCopy (with_vals t d (mapi f xs)) vt)
  else (Ret false, VecCopy d vt).
Proof.
  intros H. unfold vc_as_mut_slice_as. rewrite (vc_check_rep _ _ _ _ _ H).
  destruct (t' =? t) eqn:E; [|reflexivity]. apply N.eqb_eq in E as ->.
  unfold vc_len. cbn [vc_data vc_vtable]. rewrite (rep_len _ _ _ _ H), (rep_bytes _ _ _ _ H).
  rewrite read_vals_encs' by apply H. unfold vv_splice, with_vals.
  rewrite (rep_bytes _ _ _ _ H), splice_all; [reflexivity|].
  now rewrite !encs_length, lenN_mapi.
Qed.

Lemma read_elem t d xs i :
  Rep G t d xs -> i < lenN xs ->
  exists v, nthN xs i = Some v /\
    firstnN (t_size (G t)) (skipnN (i * t_size (G t)) (vv_bytes d)) = enc G t v /\
    lenN (vv_bytes d) <? (i + 1) * t_size (G t) = false.
Proof.
  intros H Hi. rewrite (rep_bytes _ _ _ _ H).
  destruct (read_val_at G t xs i (rep_sized _ _ _ _ H) Hi) as (v & Hn & Hb).
  exists v. csplit; try assumption. apply N.ltb_ge. rewrite encs_length. nia.
Qed.

Lemma get_as_rep t d (vt : V) xs t' i :
  Rep G t d xs ->
  vc_get_as G t' i (VecCopy d vt) =
  match nthN xs i with
  | Some v => Ret (typed t' t v)
  | None => Panic PAssert
  end.
Proof.
  intros H. unfold vc_get_as, vc_len. cbn [vc_data]. rewrite (rep_len _ _ _ _ H).
  destruct (i <? lenN xs) eqn:E.
  - apply N.ltb_lt in E. cbn [assert_ obind]. rewrite (vc_check_rep _ _ _ _ _ H).
    destruct (read_elem _ _ _ _ H E) as (v & Hn & Hb & HL). rewrite Hn. unfold typed.
    destruct (t' =? t) eqn:Et; [|reflexivity]. apply N.eqb_eq in Et as ->.
    rewrite HL, Hb, read_val_enc by (apply is_value_sized; apply H). reflexivity.
  - apply N.ltb_ge in E. now rewrite nthN_none.
Qed.

Lemma set_as_rep t d (vt : V) xs t' i v :
  Rep G t d xs ->
  vc_set_as G t' i v (VecCopy d vt) =
  if i <? lenN xs then
    if t' =? t then (Ret true, VecCopy (with_vals t d (list_set xs (N.to_nat i) v)) vt)
    else (Ret false, VecCopy d vt)
  else (Panic PAssert, VecCopy d vt).
Proof.
  intros H. unfold vc_set_as, vc_len. cbn [vc_data]. rewrite (rep_len _ _ _ _ H).
  destruct (i <? lenN xs) eqn:E; [|reflexivity].
  apply N.ltb_lt in E. cbn [assert_ obind]. rewrite (vc_check_rep _ _ _ _ _ H).
  destruct (t' =? t) eqn:Et; [|reflexivity]. apply N.eqb_eq in Et as ->.
  destruct (read_elem _ _ _ _ H E) as (x & Hn & Hb & HL).
  rewrite HL, Hb, read_val_enc by (apply is_value_sized; apply H).
  unfold vv_splice, with_vals. cbn [vc_vtable]. now rewrite (rep_bytes _ _ _ _ H), splice_encs_one.
Qed.

(** ** Untyped access *)

Definition elem_ref (t : tyid) (vt : V) (v : payload) : copy_ref V :=
  CopyRef (enc G t v) t (t_align (G t)) vt.

Lemma get_ref_rep t d (vt : V) xs i v :
  Rep G t d xs -> nthN xs i = Some v -> vc_get_ref P i (VecCopy d vt) = Ret (elem_ref t vt v).
Proof.
  intros H Hn. pose proof (nthN_some _ _ _ Hn) as Hi.
  destruct (read_elem _ _ _ _ H Hi) as (x & Hn' & Hb & HL).
  assert (x = v) by congruence. subst x.
  unfold vc_get_ref, vc_len, vc_element_type_id. cbn [vc_data vc_vtable].
  rewrite (rep_num_bytes _ _ _ H). rewrite debug_assert_true.
  2:{ apply N.ltb_lt. now rewrite (rep_len _ _ _ _ H). }
  cbn [obind]. pose proof (rep_no_overflow G HG t d xs H) as (_ & _ & H3).
  pose proof isize_lt_usize. rewrite (rep_len _ _ _ _ H) in H3.
  rewrite umul_ok by nia. cbn [obind].
  replace (i * t_size (G t) + t_size (G t)) with ((i + 1) * t_size (G t)) by lia.
  rewrite HL, Hb, (rep_elem _ _ _ _ H). reflexivity.
Qed.

Lemma get_mut_rep t d (vt : V) xs i v :
  Rep G t d xs -> nthN xs i = Some v ->
  vc_get_mut P i (VecCopy d vt) =
  Ret (i * t_size (G t), CopyMut (enc G t v) t (t_align (G t)) vt).
Proof.
  intros H Hn. pose proof (nthN_some _ _ _ Hn) as Hi.
  destruct (read_elem _ _ _ _ H Hi) as (x & Hn' & Hb & HL).
  assert (x = v) by congruence. subst x.
  unfold vc_get_mut, vc_len, vc_element_type_id. cbn [vc_data vc_vtable].
  rewrite (rep_num_bytes _ _ _ H). rewrite debug_assert_true.
  2:{ apply N.ltb_lt. now rewrite (rep_len _ _ _ _ H). }
  cbn [obind]. pose proof (rep_no_overflow G HG t d xs H) as (_ & _ & H3).
  pose proof isize_lt_usize. rewrite (rep_len _ _ _ _ H) in H3.
  rewrite umul_ok by nia. cbn [obind].
  replace (i * t_size (G t) + t_size (G t)) with ((i + 1) * t_size (G t)) by lia.
  rewrite HL, Hb, (rep_elem _ _ _ _ H). reflexivity.
Qed.

Lemma get_debug t d (vt : V) xs i :
  Rep G t d xs -> lenN xs <= i -> debug_assertions P = true ->
  vc_get_ref P i (VecCopy d vt) = Panic PDebugAssert /\
  vc_get_mut P i (VecCopy d vt) = Panic PDebugAssert.
Proof.
  intros H Hi HP. unfold vc_get_ref, vc_get_mut, vc_len, debug_assert. cbn [vc_data].
  rewrite HP, (rep_len _ _ _ _ H). apply N.ltb_ge in Hi. now rewrite Hi.
Qed.

Lemma elem_downcast t (vt : V) v t' :
  t_size (G t) <> 0 -> cr_downcast G t' (elem_ref t vt v) = Ret (typed t' t v).
Proof.
  intros Hz. unfold cr_downcast, cr_is, typed, elem_ref. cbn [cr_type_id cr_bytes].
  rewrite (N.eqb_sym t' t). destruct (t =? t') eqn:E; [|reflexivity]. apply N.eqb_eq in E as <-.
  unfold from_bytes. rewrite assert_true by (rewrite enc_length; apply N.eqb_refl). cbn [obind].
  now rewrite read_val_enc by now apply is_value_sized.
Qed.

Lemma cm_copy_elem {U} t (vt : V) x t' v (vt' : U) :
  cm_copy (CopyMut (enc G t x) t (t_align (G t)) vt) (copy_ref_new G t' v vt') =
  Ret (if t' =? t then Some (CopyMut (enc G t v) t (t_align (G t)) vt) else None).
Proof.
  unfold cm_copy, copy_ref_new. cbn [cm_type_id cr_type_id cm_bytes cr_bytes].
  rewrite (N.eqb_sym t' t). destruct (t =? t') eqn:E; [|reflexivity]. apply N.eqb_eq in E as <-.
  unfold bytes_copy_from_slice. rewrite !enc_length, N.eqb_refl. reflexivity.
Qed.

Lemma get_mut_copy_rep {U} t d (vt : V) xs i x t' v (vt' : U) :
  Rep G t d xs -> nthN xs i = Some x ->
  vc_get_mut_copy P i (copy_ref_new G t' v vt') (VecCopy d vt) =
  if t' =? t then (Ret true, VecCopy (with_vals t d (list_set xs (N.to_nat i) v)) vt)
  else (Ret false, VecCopy d vt).
Proof.
  intros H Hn. unfold vc_get_mut_copy. rewrite (get_mut_rep _ _ _ _ _ _ H Hn).
  rewrite cm_copy_elem. destruct (t' =? t); [|reflexivity].
  cbn [cm_bytes]. unfold vv_splice, with_vals. cbn [vc_data vc_vtable].
  rewrite (rep_bytes _ _ _ _ H), splice_encs_one; [reflexivity|]. now apply nthN_some in Hn.
Qed.

(** ** Iteration *)

Lemma byte_slice_rep t d xs : Rep G t d xs -> vv_byte_slice P d = Ret (encs G t xs).
Proof.
  intros H. unfold vv_byte_slice. rewrite (rep_num_bytes _ _ _ H).
  pose proof (rep_no_overflow G HG t d xs H) as (_ & _ & H3). pose proof isize_lt_usize.
  rewrite umul_ok by lia. cbn [obind]. rewrite (rep_len _ _ _ _ H), (rep_bytes _ _ _ _ H).
  rewrite encs_length, N.ltb_irrefl, firstnN_all; [reflexivity|]. rewrite encs_length. lia.
Qed.

Lemma byte_chunks_rep t d xs : Rep G t d xs -> vv_byte_chunks P d = Ret (map (enc G t) xs).
Proof.
  intros H. unfold vv_byte_chunks. rewrite (byte_slice_rep _ _ _ H), (rep_num_bytes _ _ _ H).
  cbn [obind]. apply chunks_exact_encs. apply H.
Qed.

Lemma byte_chunks_mut_rep t d xs : Rep G t d xs -> vv_byte_chunks_mut P d = Ret (map (enc G t) xs).
Proof.
  intros H. unfold vv_byte_chunks_mut. rewrite (rep_num_bytes _ _ _ H).
  pose proof (rep_no_overflow G HG t d xs H) as (_ & _ & H3). pose proof isize_lt_usize.
  unfold umul. rewrite (N.mul_comm (t_size (G t)) (vv_len d)).
  destruct (vv_len d * t_size (G t) <=? usize_max) eqn:E; [|apply N.leb_gt in E; lia].
  cbn [obind]. rewrite (rep_len _ _ _ _ H), (rep_bytes _ _ _ _ H).
  rewrite encs_length, N.ltb_irrefl, firstnN_all by (rewrite encs_length; lia).
  apply chunks_exact_encs. apply H.
Qed.

Lemma iter_rep t d (vt : V) xs :
  Rep G t d xs -> vc_iter P (VecCopy d vt) = Ret (map (elem_ref t vt) xs).
Proof.
  intros H. unfold vc_iter, vc_element_type_id. cbn [vc_data vc_vtable].
  rewrite (byte_chunks_rep _ _ _ H). cbn [obind]. rewrite map_map, (rep_elem _ _ _ _ H).
  reflexivity.
Qed.

Lemma downcast_all_rep t (vt : V) xs t' :
  t_size (G t) <> 0 ->
  downcast_all G t' (map (elem_ref t vt) xs) =
  Ret (if lenN xs =? 0 then Some [] else typed t' t xs).
Proof.
  intros Hz. unfold typed. destruct (t' =? t) eqn:E.
  - replace (if lenN xs =? 0 then Some [] else Some xs) with (Some xs).
    2:{ destruct (lenN xs =? 0) eqn:E0; [|reflexivity]. apply N.eqb_eq, lenN_zero in E0. now subst. }
    induction xs as [|x xs IH]; [reflexivity|]. cbn [map downcast_all].
    rewrite elem_downcast by exact Hz. unfold typed. rewrite E. cbn [obind].
    now rewrite IH.
  - destruct xs as [|x xs]; [reflexivity|]. cbn [map downcast_all].
    rewrite elem_downcast by exact Hz. unfold typed. rewrite E. cbn [obind].
    rewrite lenN_cons. destruct (lenN xs + 1 =? 0) eqn:E0; [apply N.eqb_eq in E0; lia|]. reflexivity.
Qed.

Lemma copy_each_rep {U} t (vt : V) xs t' v (vt' : U) :
  copy_each (map (fun bs => CopyMut bs t (t_align (G t)) vt) (map (enc G t) xs))
    (copy_ref_new G t' v vt') =
  Ret (map (enc G t) (if t' =? t then repeat v (List.length xs) else xs)).
Proof.
  induction xs as [|x xs IH]; [now destruct (t' =? t)|]. cbn [map copy_each].
  rewrite cm_copy_elem. cbn [obind]. rewrite IH. cbn [obind].
  destruct (t' =? t); reflexivity.
Qed.

Lemma concat_encs t xs : List.concat (map (enc G t) xs) = encs G t xs.
Proof. symmetry. apply flat_map_concat_map. Qed.

Lemma iter_mut_copy_rep {U} t d (vt : V) xs t' v (vt' : U) :
  Rep G t d xs ->
  vc_iter_mut_copy P (copy_ref_new G t' v vt') (VecCopy d vt) =
  (Ret tt, VecCopy (with_vals t d (if t' =? t then repeat v (List.length xs) else xs)) vt).
Proof.
  intros H. unfold vc_iter_mut_copy, vc_element_type_id. cbn [vc_data vc_vtable].
  rewrite (byte_chunks_mut_rep _ _ _ H), (rep_elem _ _ _ _ H). cbn [elem_new e_type_id e_alignment].
  rewrite copy_each_rep. unfold vv_set_chunks, with_vals.
  rewrite concat_encs, skipnN_all.
  - now rewrite app_nil_r.
  - rewrite (rep_bytes _ _ _ _ H), !encs_length.
    destruct (t' =? t); [|lia]. rewrite lenN_repeat. unfold lenN. lia.
Qed.

End Specs.
