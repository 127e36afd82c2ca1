(** * Constructors, clone, drop, conversion to [Vec] and append. *)

From Verif Require Export CallProofs.

Section Ctors.
Context {V : Type} (P : profile) (G : tenv) (HG : wf_tenv G) (build : tyid -> V).

Lemma size_le_max_alloc t : t_size (G t) <= max_alloc (t_align (G t)).
Proof.
  pose proof (chunks_size G HG t) as Hs. destruct (wf_align _ (wf_types G HG t)) as (k & Hk & Ha).
  pose proof (wf_size_max _ (wf_types G HG t)) as Hm. unfold max_alloc. unfold isize_max in *.
  assert (Hp : 2 ^ 63 = 2 ^ (63 - k) * t_align (G t)).
  { rewrite Ha, <- N.pow_add_r. f_equal. lia. }
  assert (Ha1 : 1 <= t_align (G t)) by (apply wf_align_pos; exact HG).
  set (a := t_align (G t)) in *. set (m := 2 ^ (63 - k)) in *. set (c := chunks_of G t) in *.
  assert (Hc : c + 1 <= m).
  { destruct (N.le_gt_cases (c + 1) m); [assumption|].
    assert (m * a <= c * a) by (apply N.mul_le_mono_r; lia).
    rewrite <- Hs, <- Hp in *. change (2 ^ 63) with 9223372036854775808 in *. lia. }
  assert ((c + 1) * a <= m * a) by (apply N.mul_le_mono_r; lia).
  rewrite <- Hp, N.mul_add_distr_r, <- Hs, N.mul_1_l in *.
  change (2 ^ 63) with 9223372036854775808 in *. lia.
Qed.

Lemma max_alloc_big a : legal_align a -> 4096 <= max_alloc a.
Proof.
  intros (k & Hk & ->). unfold max_alloc, isize_max.
  assert (2 ^ k <= 2 ^ 29) by (apply N.pow_le_mono_r; lia).
  change (2 ^ 29) with 536870912 in *. change (2 ^ 63) with 9223372036854775808. lia.
Qed.

(** [from_vec] on any valid vector of a sized type. *)
Lemma vv_from_vec_any t b c xs w l :
  t_size (G t) <> 0 ->
  svec_ok (t_size (G t)) (t_align (G t)) (SVec b (lenN xs) c (encs G t xs)) ->
  Owns w (owned b (c * t_size (G t)) (t_align (G t)) ++ l) ->
  exists d w', vv_from_vec G t (SVec b (lenN xs) c (encs G t xs)) w = (Ret d, w') /\
    Rep G t d xs /\ Owns w' (vv_own d ++ l) /\ w_trace w' = w_trace w /\ c <= vv_cap d /\
    (1 <= c -> w' = w /\ vv_cap d = c /\ vv_blk d = b).
Proof.
  intros Hz Hok HO. destruct Hok as [Hp Hl Hm]. cbn [v_blk v_cap v_len] in *.
  destruct (N.eq_dec c 0) as [->|Hc].
  - assert (xs = []) as -> by (apply lenN_zero; lia).
    unfold vv_from_vec, into_valid_vec. rewrite v_capacity_sized by exact Hz. cbn [v_cap].
    change (0 =? 0) with true. cbn iota.
    destruct (v_reserve_spec (t_size (G t)) (t_align (G t)) 1 (SVec b (lenN (@nil payload)) 0 (encs G t [])) w l Hz)
      as [[Hle HE]|[Hgt [(b1 & w1 & HE & Hm1 & Hus & Hpt & HO1 & Ht1)|[HE Hcap]]]].
    { split; cbn; [exact Hp|exact Hl|exact Hm]. } { exact HO. }
    + cbn in Hle. lia.
    + rewrite HE. cbn [v_blk v_len v_bytes]. rewrite v_capacity_sized by exact Hz. cbn [v_cap].
      set (c1 := grow_cap _ _ _) in *.
      assert (Hc1 : 1 <= c1) by (unfold c1, grow_cap; cbn [v_cap v_len]; lia).
      assert (Hsz : c1 * t_size (G t) <> 0) by nia.
      eexists _, w1. csplit; try reflexivity; try assumption.
      * split; cbn; try reflexivity; try assumption; try lia. now apply Hpt.
      * unfold vv_own. cbn. rewrite (num_bytes_new G t HG). exact HO1.
      * cbn. lia.
      * lia.
    + exfalso. destruct Hcap as [Hcap|Hcap]; cbn [v_len v_cap] in Hcap.
      * change (lenN []) with 0 in Hcap. unfold usize_max in Hcap. lia.
      * unfold grow_cap in Hcap. cbn [v_len v_cap] in Hcap. change (lenN []) with 0 in Hcap.
        pose proof (size_le_max_alloc t). pose proof (max_alloc_big _ (wf_align _ (wf_types G HG t))).
        unfold min_non_zero_cap in Hcap.
        destruct (t_size (G t) =? 1) eqn:E1; [apply N.eqb_eq in E1; rewrite E1 in *; lia|].
        destruct (t_size (G t) <=? 1024) eqn:E2; [apply N.leb_le in E2; lia|].
        change (N.max 1 (N.max (0 * 2) (0 + 1))) with 1 in Hcap. lia.
  - assert (Hb : b <> None) by (apply Hp; nia).
    destruct (vv_from_vec_ok G HG t b xs c w Hz Hl ltac:(lia) Hm Hb) as (HE & HR & Hown).
    eexists _, w. csplit; try eassumption; try reflexivity.
    + rewrite Hown. exact HO.
    + intros. auto.
Qed.

(** Making a [Vec]. *)
Lemma vec_make_spec t cap xs w l :
  t_size (G t) <> 0 -> Owns w l ->
  (exists b w', vec_make G t cap xs w = (Ret (SVec b (lenN xs) (N.max cap (lenN xs)) (encs G t xs)), w') /\
     svec_ok (t_size (G t)) (t_align (G t)) (SVec b (lenN xs) (N.max cap (lenN xs)) (encs G t xs)) /\
     Owns w' (owned b (N.max cap (lenN xs) * t_size (G t)) (t_align (G t)) ++ l) /\
     w_trace w' = w_trace w) \/
  (vec_make G t cap xs w = (Panic PCapacity, w) /\
   max_alloc (t_align (G t)) < N.max cap (lenN xs) * t_size (G t)).
Proof.
  intros Hz HO. unfold vec_make, v_with_capacity.
  destruct (t_size (G t) =? 0) eqn:E0; [apply N.eqb_eq in E0; lia|].
  destruct (N.max cap (lenN xs) * t_size (G t) <=? max_alloc (t_align (G t))) eqn:Em.
  - apply N.leb_le in Em. left.
    destruct (alloc_owns (N.max cap (lenN xs) * t_size (G t)) (t_align (G t)) w l HO) as (b & w' & HE & HO' & Hp & Ht).
    rewrite HE. exists b, w'. csplit; try reflexivity; try assumption.
    split; cbn; try assumption. lia.
  - apply N.leb_gt in Em. right. auto.
Qed.

(** A zero-sized Copy type: [from_vec] panics and changes nothing. *)
Lemma read_vals_zst t n : t_size (G t) = 0 -> read_vals G t n [] = Ret (repeat 0%Z n).
Proof.
  intros Hz. induction n as [|n IH]; [reflexivity|].
  cbn [read_vals]. rewrite Hz. change (lenN []) with 0. cbn [N.ltb N.compare].
  unfold firstnN, skipnN. cbn [N.to_nat firstn skipn]. unfold read_val, dec. rewrite Hz. cbn [N.eqb obind].
  rewrite IH. reflexivity.
Qed.

Lemma encs_zst t xs : t_size (G t) = 0 -> encs G t xs = [].
Proof.
  intros Hz. induction xs as [|x xs IH]; [reflexivity|]. now rewrite encs_cons, IH, enc_nil.
Qed.

Lemma vec_make_zst t cap xs w :
  t_size (G t) = 0 -> vec_make G t cap xs w = (Ret (SVec None (lenN xs) 0 []), w).
Proof.
  intros Hz. unfold vec_make, v_with_capacity. rewrite Hz, encs_zst by exact Hz. reflexivity.
Qed.

Lemma vc_from_vec_zst t n c (vt : V) w :
  t_size (G t) = 0 -> t_copy (G t) = true ->
  vc_from_vec G t (SVec None n c []) vt w = (Panic PAssert, w).
Proof.
  intros Hz Hc. unfold vc_from_vec. rewrite Hz. cbn [N.eqb]. unfold vec_drop, vec_elems.
  cbn [v_len v_bytes]. rewrite read_vals_zst by exact Hz. rewrite drop_vals_copy by exact Hc.
  unfold v_drop_nodrop, dealloc. cbn [v_cap v_blk]. rewrite Hz, N.mul_0_r. reflexivity.
Qed.

(** What a constructor gives. *)
Inductive ctor_post (c : ctor) (w : world) (l : list block)
  : outcome (veccopy V) * world -> Prop :=
| KP_ret t xs d w' :
    list_ctor G c = Some (t, xs) -> t_copy (G t) = true -> Rep G t d xs ->
    Owns w' (vv_own d ++ l) ->
    ctor_post c w l (Ret (VecCopy d (build t)), w')
| KP_panic p w' :
    Owns w' l -> (forall hint vals, c <> KFromIter hint vals) -> ctor_panics G c ->
    ctor_post c w l (Panic p, w')
| KP_iter p w' leak hint vals :
    c = KFromIter hint vals -> ctor_panics G c -> Owns w' (leak ++ l) ->
    ctor_post c w l (Panic p, w').

Lemma vc_from_vec_any t b c xs (vt : V) w l :
  t_size (G t) <> 0 ->
  svec_ok (t_size (G t)) (t_align (G t)) (SVec b (lenN xs) c (encs G t xs)) ->
  Owns w (owned b (c * t_size (G t)) (t_align (G t)) ++ l) ->
  exists d w', vc_from_vec G t (SVec b (lenN xs) c (encs G t xs)) vt w = (Ret (VecCopy d vt), w') /\
    Rep G t d xs /\ Owns w' (vv_own d ++ l) /\ w_trace w' = w_trace w /\ c <= vv_cap d /\
    (1 <= c -> w' = w /\ vv_cap d = c /\ vv_blk d = b).
Proof.
  intros Hz Hok HO. destruct (vv_from_vec_any t b c xs w l Hz Hok HO) as (d & w' & HE & HR).
  exists d, w'. split; [|exact HR]. unfold vc_from_vec. apply N.eqb_neq in Hz. now rewrite Hz, HE.
Qed.

Lemma sized_some t xs (R : tyid * list payload) :
  (if t_size (G t) =? 0 then None else Some (t, xs)) = Some R -> t_size (G t) <> 0 /\ R = (t, xs).
Proof.
  destruct (t_size (G t) =? 0) eqn:E; [discriminate|]. apply N.eqb_neq in E. intros [= <-]. auto.
Qed.

(** An elem description that a represented buffer or a reference to a sized value gives. *)
Lemma vc_with_type_from_rep t (vt : V) w l :
  t_size (G t) <> 0 -> Owns w l ->
  exists d w', vc_with_type_from P (Meta (elem_new G t) vt) w = (Ret (VecCopy d vt), w') /\
    Rep G t d [] /\ vv_cap d = 1 /\ Owns w' (vv_own d ++ l) /\ w_trace w' = w_trace w.
Proof.
  intros Hz HO. unfold vc_with_type_from. cbn [m_elem m_vtable].
  change (e_alignment (elem_new G t)) with (t_align (G t)).
  rewrite (eval_align_legal _ (wf_align _ (wf_types G HG t))).
  change (e_size (elem_new G t)) with (chunks_of G t).
  pose proof (wf_align_pos G t HG) as Ha. pose proof (chunks_size G HG t) as Hs.
  pose proof (chunks_pos G HG t Hz) as Hc. pose proof (size_le_max_alloc t) as Hm.
  unfold v_with_capacity. destruct (t_align (G t) =? 0) eqn:E0; [apply N.eqb_eq in E0; lia|].
  rewrite <- Hs. apply N.leb_le in Hm as Hm'. rewrite Hm'.
  destruct (alloc_owns (t_size (G t)) (t_align (G t)) w l HO) as (b & w' & HE & HO' & Hp & Ht).
  rewrite HE.
  destruct (rebuild P G HG t [] b 1 Hz) as (HE2 & HR & Hown); try (cbn; lia).
  { now rewrite N.mul_1_l. } { now apply Hp. }
  change (lenN [] * chunks_of G t) with 0 in HE2. rewrite N.mul_1_l in HE2.
  change (encs G t []) with (@nil mbyte) in HE2. rewrite HE2.
  eexists _, w'. csplit; try reflexivity; try assumption.
  change (@nil mbyte) with (encs G t []). rewrite Hown, N.mul_1_l. exact HO'.
Qed.

Lemma meta_of_ref_elem t v : meta_of_copy_ref (mk_ref G build t v) = Meta (elem_new G t) (build t).
Proof.
  unfold meta_of_copy_ref, mk_ref, copy_ref_new, elem_new. cbn [cr_type_id cr_bytes cr_alignment cr_vtable].
  now rewrite enc_length.
Qed.

(** A description with no bytes: no buffer. *)
Lemma vc_with_type_from_zst e (vt : V) w :
  legal_align (e_alignment e) -> e_size e = 0 ->
  vc_with_type_from P (Meta e vt) w = (Panic PDivZero, w).
Proof.
  intros Ha Hz. unfold vc_with_type_from. cbn [m_elem m_vtable].
  rewrite (eval_align_legal _ Ha), Hz. pose proof (legal_align_pos _ Ha) as Ha1.
  unfold v_with_capacity. destruct (e_alignment e =? 0) eqn:E0; [apply N.eqb_eq in E0; lia|].
  rewrite N.mul_0_l, (proj2 (N.leb_le 0 _)) by lia. unfold alloc. cbn [N.eqb].
  unfold from_vec_override. rewrite N.eqb_refl, Hz. cbn [assert_ obind].
  rewrite (proj2 (N.leb_le 0 _)) by lia. cbn [assert_ obind v_len].
  rewrite umul_0_l. reflexivity.
Qed.

Lemma chunks_zst t : t_size (G t) = 0 -> e_size (elem_new G t) = 0.
Proof. intros Hz. cbn. rewrite Hz. apply N.div_0_l. pose proof (wf_align_pos G t HG). lia. Qed.

Lemma run_ctor_post c w l :
  ctor_typed G c -> Owns w l -> ctor_post c w l (run_ctor P G build c w).
Proof.
  intros Hty HO.
  assert (Hvec : forall t cap vs,
    t_copy (G t) = true ->
    list_ctor G c = (if t_size (G t) =? 0 then None else Some (t, vs)) ->
    (forall hint vals, c <> KFromIter hint vals) ->
    (t_size (G t) = 0 \/ too_big G t (N.max cap (lenN vs)) -> ctor_panics G c) ->
    ctor_post c w l
      (match vec_make G t cap vs w with
       | (Ret v, w') => vc_from_vec G t v (build t) w'
       | (o, w') => (retype o, w')
       end)).
  { intros t cap vs Hc Hlc Hk Hbig. destruct (N.eq_dec (t_size (G t)) 0) as [Hz|Hz].
    - rewrite vec_make_zst by exact Hz. rewrite vc_from_vec_zst by assumption.
      apply (KP_panic c w l PAssert w); auto.
    - destruct (vec_make_spec t cap vs w l Hz HO) as [(b & w1 & -> & Hok & HO1 & Ht1)|[-> Hb]].
      + destruct (vc_from_vec_any t b _ vs (build t) w1 l Hz Hok HO1) as (d & w2 & -> & HR & HO2 & Ht2 & _).
        apply (KP_ret c w l t vs d w2);  try assumption.
        rewrite Hlc. apply N.eqb_neq in Hz. now rewrite Hz.
      + cbn [retype]. apply (KP_panic c w l PCapacity w); auto. }
  assert (Hnil : forall t, t_copy (G t) = true ->
    list_ctor G c = (if t_size (G t) =? 0 then None else Some (t, [])) ->
    (forall hint vals, c <> KFromIter hint vals) -> (t_size (G t) = 0 -> ctor_panics G c) ->
    ctor_post c w l (vc_from_vec G t svec_nil (build t) w)).
  { intros t Hc Hlc Hk Hbig. destruct (N.eq_dec (t_size (G t)) 0) as [Hz|Hz].
    - unfold svec_nil. rewrite vc_from_vec_zst by assumption. apply (KP_panic c w l PAssert w); auto.
    - destruct (vc_from_vec_any t None 0 [] (build t) w l Hz) as (d & w2 & HE & HR & HO2 & Ht2 & _).
      { apply svec_nil_ok. } { exact HO. }
      change (SVec None (lenN []) 0 (encs G t [])) with svec_nil in HE. rewrite HE.
      apply (KP_ret c w l t [] d w2); try assumption.
      rewrite Hlc. apply N.eqb_neq in Hz. now rewrite Hz. }
  destruct c; cbn [run_ctor ctor_typed] in *.
  - apply Hvec; try assumption; [reflexivity|discriminate|auto].
  - apply Hnil; try assumption; [reflexivity|discriminate|auto].
  - (* with_capacity: as from an empty vector *)
    pose proof (Hvec t n [] Hty eq_refl) as H. unfold vec_make in H.
    change (lenN []) with 0 in H. rewrite N.max_0_r in H. unfold vc_with_capacity.
    assert (Hs : forall v w', v_with_capacity (t_size (G t)) (t_align (G t)) n w = (Ret v, w') ->
                 SVec (v_blk v) 0 (v_cap v) (encs G t []) = v).
    { intros v w'. unfold v_with_capacity. destruct (_ =? 0); [now intros [= <- _]|].
      destruct (_ <=? _); [|discriminate]. destruct (alloc _ _ _). now intros [= <- _]. }
    destruct (v_with_capacity (t_size (G t)) (t_align (G t)) n w) as [[v|p|u|] w'] eqn:E.
    + rewrite (Hs v w' eq_refl) in H. apply H; [discriminate|auto].
    + apply H; [discriminate|auto].
    + apply H; [discriminate|auto].
    + apply H; [discriminate|auto].
  - apply (Hvec t n (repeat v (N.to_nat n))); try assumption; [reflexivity|discriminate|].
    rewrite lenN_repeat, N2Nat.id, N.max_id. auto.
  - apply (Hvec t (lenN vs) vs); try assumption; [reflexivity|discriminate|]. rewrite N.max_id. auto.
  - rewrite meta_of_ref_elem. destruct (N.eq_dec (t_size (G t)) 0) as [Hz|Hz].
    + rewrite vc_with_type_from_zst; [|apply (wf_align _ (wf_types G HG t))|now apply chunks_zst].
      apply (KP_panic _ w l _ w); try assumption; try reflexivity. discriminate.
    + destruct (vc_with_type_from_rep t (build t) w l Hz HO) as (d & w' & -> & HR & _ & HO' & Ht).
      apply (KP_ret _ w l t [] d w'); try assumption. cbn. apply N.eqb_neq in Hz. now rewrite Hz.
  - destruct vals as [|[t v] vals]; cbn [map fst snd vc_from_iter].
    { now apply (KP_iter _ w l PAssert w [] hint []); [|exact I|]. }
    rewrite meta_of_ref_elem. inversion Hty as [|x y Hc Hcs]; subst x y. cbn [fst] in Hc.
    destruct (N.eq_dec (t_size (G t)) 0) as [Hz|Hz].
    { rewrite vc_with_type_from_zst; [|apply (wf_align _ (wf_types G HG t))|now apply chunks_zst].
      apply (KP_iter _ w l _ w [] hint ((t, v) :: vals)); [reflexivity|now left|exact HO]. }
    destruct (vc_with_type_from_rep t (build t) w l Hz HO) as (d & w1 & -> & HR & _ & HO1 & Ht1).
    unfold vc_push, mk_ref at 1 2, copy_ref_new at 1 2, cr_size. cbn [cr_bytes cr_type_id].
    rewrite (vc_size_rep G HG _ _ _ _ HR), (vc_type_rep G _ _ _ _ HR), enc_length, !N.eqb_refl.
    unfold on_data. cbn [vc_data vc_vtable mk_ref copy_ref_new cr_bytes].
    destruct (push_ref_post P G HG t d [] v w1 l HR HO1)
      as (o & d1 & w2 & -> & [(-> & HR1 & HO2)|(p & leak & -> & HP & HO2 & Hf)]); cbn [obind].
    + fold (refs G build vals).
      pose proof (vc_extend_post P G HG build t d1 (build t) ([] ++ [v]) hint vals w2 l HR1 HO2) as HX.
      inversion HX as [d' w' Hs HR' HO' HE|p pre t1 v1 rest d' w' Hs Hpre Hne HR' HO' HE
                      |p d' w' leak HP HO' Hf HE]; clear HX.
      * apply (KP_ret _ w l t (v :: map snd vals) d' w'); try assumption. cbn. rewrite Hs.
        apply N.eqb_neq in Hz. now rewrite Hz.
      * unfold vc_drop. cbn [vc_data].
        destruct (vv_drop_rep P G HG t d' _ w' l HR' HO') as (w3 & -> & HO3 & _). cbn [unwind].
        apply (KP_iter _ w l p w3 [] hint ((t, v) :: vals)); [reflexivity| |exact HO3].
        right. right. right. rewrite Hs. intros HF. apply Forall_app in HF as [_ HF].
        inversion HF. now apply Hne.
      * unfold vc_drop. cbn [vc_data]. rewrite vv_drop_poisoned by exact HP. cbn [unwind].
        apply (KP_iter _ w l p w' leak hint ((t, v) :: vals)); [reflexivity| |exact HO'].
        right. right. left. exact Hf.
    + unfold vc_drop. cbn [vc_data]. rewrite vv_drop_poisoned by exact HP. cbn [unwind].
      apply (KP_iter _ w l p w2 leak hint ((t, v) :: vals)); [reflexivity| |exact HO2].
      right. left. exact Hf.
Qed.

(** ** Operations that consume or combine buffers *)

(** [into_vec] at the right type, the vector being read and dropped. *)
Lemma into_vec_rep t d (vt : V) xs w l :
  Rep G t d xs -> t_copy (G t) = true -> Owns w (vv_own d ++ l) ->
  exists vec w', vc_into_vec P G t (VecCopy d vt) w = (Ret (Some vec), w) /\
    v_blk vec = vv_blk d /\ v_cap vec = vv_cap d /\ v_len vec = lenN xs /\
    vec_elems G t vec = Ret xs /\ vec_drop G t vec w = (Ret tt, w') /\ Owns w' l /\
    w_trace w' = w_trace w.
Proof.
  intros H Hc HO. unfold vc_into_vec. rewrite (vc_check_rep G _ _ _ _ _ H), N.eqb_refl. cbn [vc_data].
  rewrite (into_vec_unchecked_rep P G HG _ _ _ H). cbn [obind].
  pose proof (typed_ok G t d xs H) as Hok. rewrite (rep_own G HG t d xs H) in HO.
  destruct (vec_drop_copy G t (vv_blk d) (vv_cap d) xs w l Hc (rep_sized _ _ _ _ H)) as (w' & HE & HO' & Ht).
  { apply Hok. } { exact HO. }
  eexists _, w'. csplit; try reflexivity; try eassumption.
  unfold vec_elems. cbn [v_len v_bytes]. apply read_vals_encs'. apply H.
Qed.

Lemma into_vec_other t t' d (vt : V) xs w l :
  Rep G t d xs -> t' <> t -> Owns w (vv_own d ++ l) ->
  exists w', vc_into_vec P G t' (VecCopy d vt) w = (Ret None, w') /\ Owns w' l /\
             w_trace w' = w_trace w.
Proof.
  intros H Hne HO. unfold vc_into_vec. rewrite (vc_check_rep G _ _ _ _ _ H).
  apply N.eqb_neq in Hne. rewrite Hne. unfold vc_drop. cbn [vc_data].
  destruct (vv_drop_rep P G HG t d xs w l H HO) as (w' & -> & HO' & Ht). cbn [obind]. eauto.
Qed.

Lemma into_vec_pois t n c (vt : V) w :
  exists o, vc_into_vec P G t (VecCopy (pois_vec n c) vt) w = (Ret o, w) /\
    match o with
    | Some vec => exists vs, vec_elems G t vec = Ret vs /\ vec_drop G t vec w = (Ret tt, w)
    | None => True
    end.
Proof.
  unfold vc_into_vec, vc_check, vc_element_type_id. cbn [vc_data pois_vec vv_elem e_type_id].
  destruct (t =? unit_id) eqn:E.
  - apply N.eqb_eq in E as ->. unfold into_vec_unchecked. cbn [vv_elem vv_blk vv_len vv_cap vv_bytes e_alignment].
    change (num_bytes (ElemInfo unit_id 0 1)) with 0. rewrite (wf_unit_size G HG), (wf_unit_align G HG).
    rewrite !debug_assert_true by reflexivity. cbn [obind]. eexists. split; [reflexivity|]. cbn.
    eexists. split; [unfold vec_elems; cbn [v_len v_bytes]; now apply read_vals_unit|].
    now apply vec_drop_unit.
  - unfold vc_drop. cbn [vc_data]. fold (pois_vec n c). rewrite vv_drop_poisoned by apply pois_vec_poisoned.
    cbn [obind]. eexists. split; [reflexivity|exact I].
Qed.

Lemma vc_clone_pois n c (vt : V) w : exists p, vc_clone P (VecCopy (pois_vec n c) vt) w = (Panic p, w).
Proof.
  unfold vc_clone, vv_clone. cbn [vc_data pois_vec vv_elem e_alignment].
  change (eval_align 1) with (Some 1). unfold aligned_vec_unchecked.
  cbn [vv_elem e_alignment e_size vv_len vv_cap vv_blk vv_bytes].
  rewrite N.eqb_refl, !umul_0_r. rewrite !debug_assert_true by reflexivity.
  cbn [obind]. rewrite v_capacity_sized by lia. cbn [v_cap].
  replace (v_with_capacity 1 1 0 w) with (@Ret svec svec_nil, w).
  2:{ unfold v_with_capacity. cbn [N.eqb]. rewrite N.mul_0_l, (proj2 (N.leb_le 0 _)) by lia. reflexivity. }
  replace (v_clone_from 1 1 (SVec None 0 0 []) svec_nil w) with (@Ret unit tt, svec_nil, w) by reflexivity.
  unfold from_vec_override. cbn. rewrite umul_0_l. cbn. eauto.
Qed.

Lemma vc_with_type_from_pois n c (vt : V) w :
  exists p, vc_with_type_from P (meta_of_vec (VecCopy (pois_vec n c) vt)) w = (Panic p, w).
Proof.
  unfold meta_of_vec. cbn [vc_data pois_vec vv_elem vc_vtable].
  rewrite vc_with_type_from_zst; [eauto| |reflexivity]. exists 0. split; [lia|reflexivity].
Qed.

Lemma aligned_pois n c : aligned_vec_unchecked P 1 (pois_vec n c) = Ret svec_nil.
Proof.
  unfold aligned_vec_unchecked. cbn [pois_vec vv_elem e_alignment e_size vv_len vv_cap vv_blk vv_bytes].
  rewrite N.eqb_refl, !umul_0_r. rewrite !debug_assert_true by reflexivity. reflexivity.
Qed.

Lemma override_pois : from_vec_override P 1 svec_nil (ElemInfo unit_id 0 1) = Panic PDivZero.
Proof. unfold from_vec_override. cbn. rewrite umul_0_l. reflexivity. Qed.

Lemma vc_append_pois n c n' c' (vt vt' : V) w :
  exists p, vc_append P (VecCopy (pois_vec n c) vt) (VecCopy (pois_vec n' c') vt') w =
            (Panic p, VecCopy vv_default vt, VecCopy vv_default vt', w).
Proof.
  unfold vc_append, vc_element_type_id. cbn [vc_data vc_vtable].
  change (e_type_id (vv_elem (pois_vec n c))) with unit_id.
  change (e_type_id (vv_elem (pois_vec n' c'))) with unit_id. rewrite N.eqb_refl.
  assert (HA : exists p, vv_append P (pois_vec n c) (pois_vec n' c') w =
                         (Panic p, vv_default, vv_default, w)).
  { unfold vv_append.
    change (vv_elem (pois_vec n c)) with (ElemInfo unit_id 0 1).
    change (vv_elem (pois_vec n' c')) with (ElemInfo unit_id 0 1).
    cbn [e_type_id e_alignment e_size]. rewrite !N.eqb_refl. cbn [negb]. rewrite !andb_false_r.
    change (eval_align 1) with (Some 1). cbn iota.
    unfold apply_aligned_unchecked. rewrite !aligned_pois.
    change (v_append 1 1 svec_nil svec_nil w) with (@Ret unit tt, svec_nil, svec_nil, w). cbn iota.
    change (vv_elem (pois_vec n' c')) with (ElemInfo unit_id 0 1). rewrite override_pois.
    cbn. eauto. }
  destruct HA as [p ->]. cbn [obind]. eauto.
Qed.

End Ctors.
