(** * DynOps2: operations on two [VecDyn]s, and construction, cloning, dropping, comparison and
    conversion of whole vectors. *)

From Verif Require Export DynOps.

Section Ops2.
Context {V : Type} `{HD : HasDrop V} `{HCl : HasClone V} `{HE : HasPartialEq V} `{HH : HasHash V}
        `{HF : HasDebug V} `{HT : VTable V} `{HS : Sized V} {HL : Lawful V}.
Context (P : profile) (G : tenv) (HG : wf_tenv G) (HC : clones_ok G) (HQ : drops_quietly G).

(** What a call on two vectors with contents [xs] and [ys] leaves. *)
Inductive two_post {A} (t : tyid) (xs : list payload) (vt : V) (t' : tyid) (ys : list payload) (vt' : V)
    (w : world) (l : list block) (spec : option (A * list payload * list payload))
    (may : option (list payload) -> option (list payload) -> Prop)
  : outcome A * vecdyn V * vecdyn V * world -> Prop :=
| TP_ret a xs' ys' d d' w' :
    spec = Some (a, xs', ys') -> Rep G t d xs' -> Rep G t' d' ys' ->
    Owns w' (vv_own d ++ vv_own d' ++ l) -> w_trace w' = w_trace w ->
    bal G (owned_vals G t xs ++ owned_vals G t' ys) [] (w_trace w)
          (owned_vals G t xs' ++ owned_vals G t' ys') [] [] (w_trace w') ->
    two_post t xs vt t' ys vt' w l spec may (Ret a, VecCopy d vt, VecCopy d' vt', w')
| TP_panic p d d' left left' w' leak lost :
    vec_left G t d left -> vec_left G t' d' left' -> may left left' -> w_trace w' = w_trace w ->
    Owns w' (vv_own d ++ vv_own d' ++ leak ++ l) ->
    bal G (owned_vals G t xs ++ owned_vals G t' ys) [] (w_trace w)
          (left_vals G t left ++ left_vals G t' left') [] lost (w_trace w') ->
    two_post t xs vt t' ys vt' w l spec may (Panic p, VecCopy d vt, VecCopy d' vt', w').

(** As above when one of the two is what a panic left behind. *)
Inductive two_pois {A} (t : tyid) (left : option (list payload)) (vt : V)
    (t' : tyid) (left' : option (list payload)) (vt' : V)
    (w : world) (l : list block) : outcome A * vecdyn V * vecdyn V * world -> Prop :=
| TPP o d d' w' :
    safe o -> vec_left G t d left -> vec_left G t' d' left' ->
    Owns w' (vv_own d ++ vv_own d' ++ l) -> w_trace w' = w_trace w ->
    two_pois t left vt t' left' vt' w l (o, VecCopy d vt, VecCopy d' vt', w').

(** ** swap *)

Lemma swap_two t d xs i t' d' ys j w l :
  Rep G t d xs -> Rep G t' d' ys -> Owns w (vv_own d ++ vv_own d' ++ l) ->
  fits P (i + 1) (t_size (G t)) -> fits P (j + 1) (t_size (G t')) ->
  two_post t xs (build_vtable t) t' ys (build_vtable t') w l
    (match nthN xs i, nthN ys j with
     | Some x, Some y =>
         if t =? t' then Some (tt, list_set xs (N.to_nat i) y, list_set ys (N.to_nat j) x)
         else Some (tt, xs, ys)
     | _, _ => None
     end)
    (fun left left' => (nthN xs i = None \/ nthN ys j = None) /\ left = Some xs /\ left' = Some ys)
    (let '(o, b, b') := vd_swap P i (VecCopy d (build_vtable t)) j (VecCopy d' (build_vtable t')) in
     (o, b, b', w)).
Proof using HG HL.
  intros HR HR' HO Hf Hf'. unfold vd_swap.
  assert (Hsame : forall p spec (may : option (list payload) -> option (list payload) -> Prop),
      may (Some xs) (Some ys) ->
      two_post (A := unit) t xs (build_vtable t) t' ys (build_vtable t') w l spec may
      (Panic p, VecCopy d (build_vtable t), VecCopy d' (build_vtable t'), w)).
  { intros p spec may Hm.
    apply (TP_panic t xs (build_vtable t) t' ys (build_vtable t') w l spec may p d d'
             (Some xs) (Some ys) w [] []); auto.
    - now apply VL_rep.
    - now apply VL_rep.
    - intros q. cbn [left_vals]. cnts q. lia. }
  destruct (nthN xs i) as [x|] eqn:Ei.
  2:{ destruct (vd_get_out P G HG t d (build_vtable t) xs i HR Ei Hf) as (p & _ & ->). apply Hsame. auto. }
  rewrite (vd_get_mut_rep P G HG t d (build_vtable t) xs i x HR Ei).
  destruct (nthN ys j) as [y|] eqn:Ej.
  2:{ destruct (vd_get_out P G HG t' d' (build_vtable t') ys j HR' Ej Hf') as (p & _ & ->). apply Hsame. auto. }
  rewrite (vd_get_mut_rep P G HG t' d' (build_vtable t') ys j y HR' Ej). cbn [vc_data vc_vtable].
  pose proof (nthN_some _ _ _ Ei) as Hi. pose proof (nthN_some _ _ _ Ej) as Hj.
  destruct (vm_swap_ok G _ t x _ t' y (mut_elem G t x (rep_sized _ _ _ _ HR))
              (mut_elem G t' y (rep_sized _ _ _ _ HR'))) as (m1 & m2 & -> & -> & ->).
  destruct (t =? t') eqn:Et.
  - apply N.eqb_eq in Et as <-.
    rewrite (splice_one_with_vals G t d xs i y HR Hi), (splice_one_with_vals G t d' ys j x HR' Hj).
    eapply TP_ret; [reflexivity| | | |reflexivity|].
    + apply (with_vals_rep G t d xs _ HR). apply lenN_list_set.
    + apply (with_vals_rep G t d' ys _ HR'). apply lenN_list_set.
    + rewrite !with_vals_own. exact HO.
    + intros q. pose proof (cnt_perm q _ _ (owned_vals_list_set G t xs _ y x Ei)) as H1.
      pose proof (cnt_perm q _ _ (owned_vals_list_set G t ys _ x y Ej)) as H2.
      revert H1 H2. cnts q. lia.
  - rewrite (splice_one_with_vals G t d xs i x HR Hi), (splice_one_with_vals G t' d' ys j y HR' Hj).
    rewrite (list_set_nthN xs i x Ei), (list_set_nthN ys j y Ej).
    rewrite (with_vals_id G t d xs HR), (with_vals_id G t' d' ys HR').
    eapply TP_ret; [reflexivity|exact HR|exact HR'|exact HO|reflexivity|]. intros q. cnts q. lia.
Qed.

Lemma swap_pois t d vs i t' d' vs' j w l :
  vec_left G t d vs -> vec_left G t' d' vs' -> Poisoned d \/ Poisoned d' ->
  Owns w (vv_own d ++ vv_own d' ++ l) ->
  (~ Poisoned d -> fits P (i + 1) (t_size (G t))) -> (~ Poisoned d' -> fits P (j + 1) (t_size (G t'))) ->
  two_pois t vs (build_vtable t) t' vs' (build_vtable t') w l
    (let '(o, b, b') := vd_swap P i (VecCopy d (build_vtable t)) j (VecCopy d' (build_vtable t')) in
     (o, b, b', w)).
Proof using HG HL.
  intros H H' Hp HO Hf Hf'.
  assert (Hsame : forall o, safe o -> two_pois (A := unit) t vs (build_vtable t) t' vs' (build_vtable t') w l
      (o, VecCopy d (build_vtable t), VecCopy d' (build_vtable t'), w)).
  { intros o Ho. now apply TPP. }
  unfold vd_swap.
  (* the reference made on each side, if any *)
  assert (Hm : forall t d vs i, vec_left G t d vs -> (~ Poisoned d -> fits P (i + 1) (t_size (G t))) ->
    (exists p, vd_get_mut P i (VecCopy d (build_vtable t)) = Panic p) \/
    (exists off m, vd_get_mut P i (VecCopy d (build_vtable t)) = Ret (off, m) /\
       vv_splice off (vm_bytes m) d = d /\
       (Poisoned d /\ vm_type_id m = unit_id /\ vm_bytes m = [] \/
        ~ Poisoned d /\ vm_type_id m <> unit_id))).
  { clear - HG. intros t d vs i H Hf. inversion H as [xs HR|HP].
    - assert (Hnp : ~ Poisoned d).
      { intros HP. apply (rep_not_unit G HG _ _ _ HR). rewrite <- (rep_type G _ _ _ HR), (po_elem _ HP). reflexivity. }
      destruct (nthN xs i) as [x|] eqn:Ei.
      + right. rewrite (vd_get_mut_rep P G HG t d (build_vtable t) xs i x HR Ei).
        eexists _, _. split; [reflexivity|]. cbn [vm_bytes vm_type_id].
        rewrite (splice_one_with_vals G t d xs i x HR (nthN_some _ _ _ Ei)), (list_set_nthN xs i x Ei),
          (with_vals_id G t d xs HR). split; [reflexivity|]. right. split; [exact Hnp|].
        apply (rep_not_unit G HG _ _ _ HR).
      + left. destruct (vd_get_out P G HG t d (build_vtable t) xs i HR Ei (Hf Hnp)) as (p & _ & ->). eauto.
    - rewrite (poisoned_shape d HP).
      destruct (vd_get_mut_pois P i (vv_len d) (vv_cap d) (build_vtable t)) as [[p ->]| ->]; [left; eauto|].
      right. eexists _, _. split; [reflexivity|]. split; [reflexivity|]. left.
      split; [apply pois_vec_poisoned|]. split; reflexivity. }
  destruct (Hm t d vs i H Hf) as [[p ->]|(off & m & -> & Hs & Hk)]; [now apply Hsame|].
  destruct (Hm t' d' vs' j H' Hf') as [[p ->]|(off' & m' & -> & Hs' & Hk')]; [now apply Hsame|].
  unfold vm_swap. cbn [vc_data vc_vtable].
  destruct Hk as [(HP1 & E1 & B1)|(HP1 & E1)]; destruct Hk' as [(HP2 & E2 & B2)|(HP2 & E2)].
  - rewrite E1, E2, B1, B2, !N.eqb_refl. rewrite B1 in Hs. rewrite B2 in Hs'.
    cbn [vm_with_bytes vm_bytes]. rewrite Hs, Hs'. now apply Hsame.
  - rewrite E1. rewrite (proj2 (N.eqb_neq unit_id _)) by congruence. rewrite Hs, Hs'. now apply Hsame.
  - rewrite E2. rewrite (proj2 (N.eqb_neq _ unit_id)) by congruence. rewrite Hs, Hs'. now apply Hsame.
  - exfalso. tauto.
Qed.

(** ** append *)

Lemma append_two t d xs t' d' ys w l :
  Rep G t d xs -> Rep G t' d' ys -> Owns w (vv_own d ++ vv_own d' ++ l) ->
  two_post t xs (build_vtable t) t' ys (build_vtable t') w l
    (if t' =? t then Some (true, xs ++ ys, []) else Some (false, xs, ys))
    (fun left left' => t' = t /\ left = None /\
       (no_room G t (lenN xs) (lenN xs + lenN ys) /\ left' = None \/
        odd_growth_to G t (lenN xs) (lenN xs + lenN ys) /\ left' = Some []))
    (vd_append P (VecCopy d (build_vtable t)) (VecCopy d' (build_vtable t')) w).
Proof using HG.
  intros HR HR' HO. unfold vd_append, vc_append, vc_element_type_id. cbn [vc_data vc_vtable].
  rewrite (rep_type G _ _ _ HR), (rep_type G _ _ _ HR'). destruct (t' =? t) eqn:Et.
  2:{ eapply TP_ret; [reflexivity|exact HR|exact HR'|exact HO|reflexivity|]. intros q. cnts q. lia. }
  apply N.eqb_eq in Et as ->.
  destruct (vv_append_rep P G HG t d d' xs ys w l HR HR' HO)
    as [d1 d2 w' HR1 HR2 _ _ _ HO' Ht _|w' Hlt Hcap HO' Ht|d2 w' i Hbad HR2 _ _ HO' Ht]; cbn [obind].
  - eapply TP_ret; [reflexivity|exact HR1|exact HR2|exact HO'|exact Ht|].
    intros q. rewrite Ht. cnts q. lia.
  - apply (TP_panic t xs (build_vtable t) t ys (build_vtable t) w l _ _ PCapacity vv_default vv_default
             None None w' [] (owned_vals G t xs ++ owned_vals G t ys)).
    + apply VL_pois. apply vv_default_poisoned.
    + apply VL_pois. apply vv_default_poisoned.
    + csplit; try reflexivity. left. split; [|reflexivity]. rewrite lenN_app in Hlt, Hcap.
      eapply no_room_of; [exact HG|exact HR| | |exact Hlt|exact Hcap].
      * pose proof (wf_align_pos G t HG). lia.
      * apply align_le_size; [exact HG|]. apply (rep_sized _ _ _ _ HR).
    + exact Ht.
    + exact HO'.
    + intros q. cbn [left_vals]. rewrite Ht. cnts q. lia.
  - apply (TP_panic t xs (build_vtable t) t ys (build_vtable t) w l _ _ PAssert vv_default d2
             None (Some []) w' [(i, (8, 1))] (owned_vals G t xs ++ owned_vals G t ys)).
    + apply VL_pois. apply vv_default_poisoned.
    + now apply VL_rep.
    + csplit; try reflexivity. right. split; [|reflexivity]. rewrite lenN_app in Hbad.
      eapply odd_of; eassumption.
    + exact Ht.
    + cbn [vv_own vv_default app]. change (vv_own vv_default) with (@nil block). cbn [app].
      apply (Owns_swap w' [(i, (8, 1))] (vv_own d2) l). exact HO'.
    + intros q. cbn [left_vals]. rewrite Ht. cnts q. lia.
Qed.

Lemma append_pois t d vs t' d' vs' w l :
  vec_left G t d vs -> vec_left G t' d' vs' -> Poisoned d \/ Poisoned d' ->
  Owns w (vv_own d ++ vv_own d' ++ l) ->
  two_pois t vs (build_vtable t) t' vs' (build_vtable t') w l
    (vd_append P (VecCopy d (build_vtable t)) (VecCopy d' (build_vtable t')) w).
Proof using HG.
  intros H H' Hp HO. unfold vd_append.
  destruct (vc_element_type_id (VecCopy d' (build_vtable t')) =?
            vc_element_type_id (VecCopy d (build_vtable t))) eqn:Et.
  - inversion H as [xs HR|HP]; inversion H' as [ys HR'|HP'].
    + exfalso. destruct Hp as [Hp|Hp].
      * apply (rep_not_unit G HG _ _ _ HR). rewrite <- (rep_type G _ _ _ HR), (po_elem _ Hp). reflexivity.
      * apply (rep_not_unit G HG _ _ _ HR'). rewrite <- (rep_type G _ _ _ HR'), (po_elem _ Hp). reflexivity.
    + exfalso. unfold vc_element_type_id in Et. cbn [vc_data] in Et. apply N.eqb_eq in Et.
      rewrite (rep_type G _ _ _ HR), (po_elem _ HP') in Et. now apply (rep_not_unit G HG _ _ _ HR).
    + exfalso. unfold vc_element_type_id in Et. cbn [vc_data] in Et. apply N.eqb_eq in Et.
      rewrite (rep_type G _ _ _ HR'), (po_elem _ HP) in Et. now apply (rep_not_unit G HG _ _ _ HR').
    + rewrite (vv_own_poisoned d HP), (vv_own_poisoned d' HP') in HO.
      rewrite (poisoned_shape d HP), (poisoned_shape d' HP').
      destruct (vc_append_pois P (vv_len d) (vv_cap d) (vv_len d') (vv_cap d') (build_vtable t)
                  (build_vtable t') w) as [p ->].
      apply TPP; [exact I| | |exact HO|reflexivity]; apply VL_pois; apply vv_default_poisoned.
  - unfold vc_append. rewrite Et. now apply TPP.
Qed.

(** ** Typed vectors of the standard library *)

Definition tvec (t : tyid) (b : option N) (c : N) (xs : list payload) (w : world) (l : list block) : Prop :=
  Forall (is_value G t) xs /\
  (t_size (G t) <> 0 -> svec_ok (t_size (G t)) (t_align (G t)) (SVec b (lenN xs) c (encs G t xs))) /\
  (t_size (G t) = 0 -> b = None) /\ ptr_ok b (c * t_size (G t)) /\
  Owns w (owned b (c * t_size (G t)) (t_align (G t)) ++ l).

Lemma with_cap_tvec t n w l :
  Owns w l ->
  (exists b c w', v_with_capacity (t_size (G t)) (t_align (G t)) n w = (Ret (SVec b 0 c []), w') /\
     tvec t b c [] w' l /\ w_trace w' = w_trace w /\ (t_size (G t) <> 0 -> c = n)) \/
  v_with_capacity (t_size (G t)) (t_align (G t)) n w = (Panic PCapacity, w) /\ PanicSpec.too_big G t n.
Proof.
  intros HO. unfold v_with_capacity. destruct (t_size (G t) =? 0) eqn:Ez.
  - apply N.eqb_eq in Ez. left. exists None, 0, w. split; [reflexivity|]. split.
    + unfold tvec. split; [constructor|]. split; [intros H; now elim H|]. split; [reflexivity|].
      split; [|exact HO]. intros H. elim H. lia.
    + split; [reflexivity|]. intros H. now elim H.
  - apply N.eqb_neq in Ez. destruct (n * t_size (G t) <=? max_alloc (t_align (G t))) eqn:El.
    2:{ right. split; [reflexivity|]. apply N.leb_gt in El. exact El. }
    apply N.leb_le in El. left.
    destruct (alloc_owns (n * t_size (G t)) (t_align (G t)) w l HO) as (b & w' & -> & HO' & Hp & Ht).
    exists b, n, w'. split; [reflexivity|]. split.
    + unfold tvec. split; [constructor|]. split.
      * intros _. constructor; cbn [v_blk v_len v_cap]; [exact Hp|rewrite lenN_nil; lia|exact El].
      * split; [intros H; now elim Ez|]. split; [exact Hp|exact HO'].
    + split; [exact Ht|reflexivity].
Qed.

Lemma tvec_fill t b c xs w l tr :
  tvec t b c [] w l -> Forall (is_value G t) xs -> (t_size (G t) <> 0 -> lenN xs <= c) ->
  tvec t b c xs (set_tr tr w) l.
Proof.
  intros (_ & Hok & Hz & Hp & HO) Hv Hl. unfold tvec. split; [exact Hv|]. split.
  - intros H. specialize (Hok H). destruct Hok as [H1 H2 H3]. constructor; auto.
  - split; [exact Hz|]. split; [exact Hp|]. now apply Owns_set_tr.
Qed.

Lemma tvec_drop t b c xs w l :
  tvec t b c xs w l ->
  exists w', vec_drop G t (SVec b (lenN xs) c (encs G t xs)) w = (Ret tt, w') /\ Owns w' l /\
    w_trace w' = w_trace w ++ drops G t xs.
Proof using HQ. intros (Hv & Hok & Hz & Hp & HO). now apply vec_drop_q. Qed.

(** What the construction of a vector yields. *)
Inductive new_post (w : world) (l : list block) (gives : list tval)
    (spec : option (tyid * list payload * list event)) (may : list event -> Prop)
  : outcome (vecdyn V) * world -> Prop :=
| NP_ret t xs d w' :
    spec = Some (t, xs, w_trace w') -> Rep G t d xs -> Owns w' (vv_own d ++ l) ->
    bal G [] gives (w_trace w) (owned_vals G t xs) [] [] (w_trace w') ->
    new_post w l gives spec may (Ret (VecCopy d (build_vtable t)), w')
| NP_panic p w' leak lost :
    may (w_trace w') -> Owns w' (leak ++ l) ->
    bal G [] gives (w_trace w) [] [] lost (w_trace w') ->
    new_post w l gives spec may (Panic p, w').

Definition sized_spec (t : tyid) (xs : list payload) (tr : list event)
  : option (tyid * list payload * list event) :=
  if t_size (G t) =? 0 then None else Some (t, xs, tr).

Lemma from_tvec t b c xs w w1 l gives :
  tvec t b c xs w1 l ->
  bal G [] gives (w_trace w) (owned_vals G t xs) [] [] (w_trace w1) ->
  new_post w l gives (sized_spec t xs (w_trace w1))
    (fun tr => t_size (G t) = 0 /\ tr = w_trace w1 ++ drops G t xs)
    (vd_from_vec G t (SVec b (lenN xs) c (encs G t xs)) w1).
Proof using HG HQ.
  intros HV Hb. unfold vd_from_vec. unfold sized_spec. destruct (t_size (G t) =? 0) eqn:Ez.
  - unfold vc_from_vec. rewrite Ez. destruct (tvec_drop t b c xs w1 l HV) as (w' & -> & HO & Ht).
    cbn [unwind]. apply N.eqb_eq in Ez.
    apply (NP_panic w l gives _ _ PAssert w' [] []); [auto|exact HO|].
    intros q. specialize (Hb q). rewrite Ht. revert Hb. cnts q. lia.
  - apply N.eqb_neq in Ez. destruct HV as (Hv & Hok & _ & Hp & HO).
    destruct (vc_from_vec_any G HG t b c xs (build_vtable t) w1 l Ez (Hok Ez) HO)
      as (d & w2 & -> & HR & HO2 & Ht & _).
    eapply NP_ret; [rewrite Ht; reflexivity|exact HR|exact HO2|]. rewrite Ht. exact Hb.
Qed.

Lemma panic_same_new p w l spec (may : list event -> Prop) :
  Owns w l -> may (w_trace w) -> new_post w l [] spec may (Panic p, w).
Proof.
  intros HO Hm. apply (NP_panic w l [] spec may p w [] []); [exact Hm|exact HO|].
  intros q. cnts q. lia.
Qed.

Lemma new_spec w l gives spec spec' (may may' : list event -> Prop) r :
  spec = spec' -> (forall tr, may tr -> may' tr) ->
  new_post w l gives spec may r -> new_post w l gives spec' may' r.
Proof.
  intros -> Hm [t xs d w' Hs HR HO HB|p w' leak lost Hl HO HB].
  - eapply NP_ret; eassumption.
  - eapply NP_panic; eauto.
Qed.

Lemma from_vec_new t cap vs w l :
  Forall (is_value G t) vs -> Owns w l ->
  new_post w l (owned_vals G t vs) (sized_spec t vs (w_trace w))
    (fun tr => PanicSpec.too_big G t (N.max cap (lenN vs)) /\ tr = w_trace w \/
               t_size (G t) = 0 /\ tr = w_trace w ++ drops G t vs)
    (match vec_make G t cap vs w with
     | (Ret v, w') => vd_from_vec G t v w'
     | (o, w') => (retype o, w')
     end).
Proof using HG HQ.
  intros Hv HO. unfold vec_make.
  destruct (with_cap_tvec t (N.max cap (lenN vs)) w l HO) as [(b & c & w1 & -> & HV & Ht & Hc)|[-> Hbig]].
  - cbn [v_blk v_cap]. rewrite <- Ht.
    eapply new_spec; [reflexivity| |apply (from_tvec t b c vs w w1 l)].
    + intros tr H. right. exact H.
    + rewrite <- (set_tr_same w1). apply tvec_fill; [exact HV|exact Hv|]. intros Hz. rewrite (Hc Hz). lia.
    + intros q. rewrite Ht. cnts q. lia.
  - cbn [retype]. apply (NP_panic w l _ _ _ PCapacity w [] (owned_vals G t vs)); [auto|exact HO|].
    intros q. cnts q. lia.
Qed.

Lemma with_capacity_new t n w l :
  Owns w l -> 
  new_post w l [] (sized_spec t [] (w_trace w))
    (fun tr => (t_size (G t) = 0 \/ PanicSpec.too_big G t n) /\ tr = w_trace w)
    (vd_with_capacity G t n w).
Proof using HG HQ.
  intros HO. unfold vd_with_capacity, vc_with_capacity.
  destruct (with_cap_tvec t n w l HO) as [(b & c & w1 & -> & HV & Ht & Hc)|[-> Hbig]].
  - rewrite <- Ht. eapply new_spec; [reflexivity| |apply (from_tvec t b c [] w w1 l [] HV)].
    + intros tr [Hz ->]. rewrite drops_nil, app_nil_r. auto.
    + intros q. rewrite Ht. cnts q. lia.
  - cbn [retype]. apply panic_same_new; auto.
Qed.

Lemma nil_tvec t w l : Owns w l -> tvec t None 0 [] w l.
Proof.
  intros HO. unfold tvec. split; [constructor|]. split.
  { intros Hz. apply (svec_nil_ok (t_size (G t)) (t_align (G t))). }
  split; [reflexivity|]. split; [|exact HO]. intros H. elim H. lia.
Qed.

Lemma with_type_new t w l :
  Owns w l -> 
  new_post w l [] (sized_spec t [] (w_trace w))
    (fun tr => t_size (G t) = 0 /\ tr = w_trace w) (vd_with_type G t w).
Proof using HG HQ.
  intros HO. eapply new_spec; [reflexivity| |apply (from_tvec t None 0 [] w w l)].
  - intros tr [Hz ->]. rewrite drops_nil, app_nil_r. auto.
  - now apply nil_tvec.
  - intros q. cnts q. lia.
Qed.

Lemma from_slice_new t vs w l :
  Owns w l ->
  new_post w l []
    (let '(cs, ok, tr) := clone_seq G t vs (w_trace w) in if ok then sized_spec t cs tr else None)
    (fun tr => PanicSpec.too_big G t (lenN vs) /\ tr = w_trace w \/
       exists cs ok tr1, clone_seq G t vs (w_trace w) = (cs, ok, tr1) /\
         (ok = true -> t_size (G t) = 0) /\ tr = tr1 ++ drops G t cs)
    (vd_from_slice G t vs w).
Proof using HG HQ HC.
  intros HO. unfold vd_from_slice, slice_to_vec.
  destruct (clone_seq G t vs (w_trace w)) as [[cs ok] tr] eqn:Es.
  destruct (with_cap_tvec t (lenN vs) w l HO) as [(b & c & w1 & -> & HV & Ht & Hc)|[-> Hbig]].
  2:{ cbn [retype]. apply panic_same_new; auto. }
  rewrite <- Ht in Es. rewrite (clone_vals_seq G t vs w1 cs ok tr Es).
  pose proof (clone_seq_len G t vs _ cs ok tr Es) as (Hl & Hl' & _).
  pose proof (clone_seq_bal G t vs _ cs ok tr Es) as Hb. rewrite Ht in Hb.
  pose proof (clone_seq_values G HC t vs _ cs ok tr Es) as Hv.
  assert (HV' : tvec t b c cs (set_tr tr w1) l).
  { apply tvec_fill; [exact HV|exact Hv|]. intros Hz. rewrite (Hc Hz). unfold lenN. lia. }
  cbn [v_blk v_cap]. destruct ok.
  - eapply new_spec; [| |apply (from_tvec t b c cs w _ l [] HV')].
    + now rewrite set_tr_trace.
    + intros tr' [Hz ->]. right. exists cs, true, tr. rewrite set_tr_trace. rewrite Ht in Es. auto.
    + rewrite set_tr_trace. exact Hb.
  - destruct (tvec_drop t b c cs _ l HV') as (w' & -> & HO' & Ht'). cbn [unwind retype].
    apply (NP_panic w l [] _ _ PUser w' [] []); [|exact HO'|].
    + right. exists cs, false, tr. rewrite Ht', set_tr_trace. rewrite Ht in Es. csplit; auto. discriminate.
    + intros q. specialize (Hb q). rewrite Ht', set_tr_trace. revert Hb. cnts q. lia.
Qed.

Lemma with_size_new t n v w l :
  is_value G t v -> Owns w l ->
  new_post w l (owned_vals G t [v])
    (if n =? 0 then sized_spec t [] (w_trace w ++ drops G t [v])
     else
       let '(cs, ok, tr) := clone_seq G t (repeat v (N.to_nat (n - 1))) (w_trace w) in
       if ok then sized_spec t (cs ++ [v]) tr else None)
    (fun tr =>
       (PanicSpec.too_big G t n \/ n = 0 /\ t_size (G t) = 0) /\ tr = w_trace w ++ drops G t [v] \/
       n <> 0 /\
       exists cs ok tr1, clone_seq G t (repeat v (N.to_nat (n - 1))) (w_trace w) = (cs, ok, tr1) /\
         if ok then t_size (G t) = 0 /\ tr = tr1 ++ drops G t (cs ++ [v])
         else tr = tr1 ++ drops G t [v] ++ drops G t cs)
    (vd_with_size G t n v w).
Proof using HG HQ HC.
  intros Hiv HO. unfold vd_with_size, vec_from_elem.
  destruct (with_cap_tvec t n w l HO) as [(b & c & w1 & -> & HV & Ht & Hc)|[-> Hbig]].
  2:{ rewrite (drop_val_q G HQ). cbn [unwind retype].
      apply (NP_panic w l _ _ _ PCapacity _ [] []); [rewrite set_tr_trace; auto|now apply Owns_set_tr|].
      intros q. rewrite set_tr_trace. cnts q. lia. }
  destruct (n =? 0) eqn:En.
  - rewrite (drop_val_q G HQ). apply N.eqb_eq in En.
    eapply new_spec;
      [| |apply (from_tvec t b c [] w (set_tr (w_trace w1 ++ drops G t [v]) w1) l)].
    + now rewrite set_tr_trace, Ht.
    + intros tr [Hz ->]. rewrite drops_nil, app_nil_r, set_tr_trace, Ht. auto.
    + apply tvec_fill; [exact HV|constructor|]. intros _. rewrite lenN_nil. lia.
    + intros q. rewrite set_tr_trace, Ht. cnts q. lia.
  - apply N.eqb_neq in En.
    destruct (clone_seq G t (repeat v (N.to_nat (n - 1))) (w_trace w)) as [[cs ok] tr] eqn:Es.
    rewrite <- Ht in Es. rewrite (clone_vals_seq G t _ w1 cs ok tr Es).
    pose proof (clone_seq_len G t _ _ cs ok tr Es) as (Hl & Hl' & _). rewrite repeat_length in Hl.
    pose proof (clone_seq_bal G t _ _ cs ok tr Es) as Hb. rewrite Ht in Hb.
    pose proof (clone_seq_values G HC t _ _ cs ok tr Es) as Hv.
    cbn [v_blk v_cap]. destruct ok.
    + eapply new_spec; [| |apply (from_tvec t b c (cs ++ [v]) w (set_tr tr w1) l)].
      * now rewrite set_tr_trace.
      * intros tr' [Hz ->]. right. split; [exact En|]. exists cs, true, tr. rewrite set_tr_trace.
        rewrite Ht in Es. auto.
      * apply tvec_fill; [exact HV| |].
        -- apply Forall_app. split; [exact Hv|]. now constructor.
        -- intros Hz. rewrite (Hc Hz), lenN_app. unfold lenN. cbn [List.length]. lia.
      * intros q. specialize (Hb q). rewrite set_tr_trace. revert Hb. cnts q. lia.
    + rewrite (drop_val_q G HQ), set_tr_set, set_tr_trace.
      assert (HV' : tvec t b c cs (set_tr (tr ++ drops G t [v]) w1) l).
      { apply tvec_fill; [exact HV|exact Hv|]. intros Hz. rewrite (Hc Hz). unfold lenN. lia. }
      destruct (tvec_drop t b c cs _ l HV') as (w' & -> & HO' & Ht'). cbn [unwind retype].
      apply (NP_panic w l _ _ _ PUser w' [] []); [|exact HO'|].
      * right. split; [exact En|]. exists cs, false, tr. rewrite Ht', set_tr_trace, <- app_assoc.
        rewrite Ht in Es. auto.
      * intros q. specialize (Hb q). rewrite Ht', set_tr_trace. revert Hb. cnts q. lia.
Qed.

Lemma with_type_from_new t w l :
  Owns w l ->
  new_post w l [] (sized_spec t [] (w_trace w)) (fun tr => t_size (G t) = 0 /\ tr = w_trace w)
    (vd_with_type_from P (Meta (elem_new G t) (build_vtable t)) w).
Proof using HG.
  intros HO. unfold vd_with_type_from, sized_spec. destruct (t_size (G t) =? 0) eqn:Ez.
  - apply N.eqb_eq in Ez.
    rewrite (vc_with_type_from_zst P (elem_new G t)); [apply panic_same_new; auto| |now apply chunks_zst].
    apply (wf_align _ (wf_types G HG t)).
  - apply N.eqb_neq in Ez.
    destruct (vc_with_type_from_rep P G HG t (build_vtable t) w l Ez HO) as (d & w' & -> & HR & _ & HO' & Ht).
    eapply NP_ret; [rewrite Ht; reflexivity|exact HR|exact HO'|]. intros q. rewrite Ht. cnts q. lia.
Qed.

Lemma meta_ref_ok r t v : ref_ok G r (Some (t, v)) -> meta_of_vref r = Meta (elem_new G t) (build_vtable t).
Proof.
  intros H. inversion H as [t1 v1 Rb Rt Ra Rv Ry E|]; subst t1 v1. unfold meta_of_vref, elem_new.
  rewrite Rb, Rt, Ra, enc_length. destruct (vr_vtable r); cbn in *; now rewrite Rv.
Qed.

Lemma with_type_from_ref_pois r w : ref_ok G r None ->
  exists p, vd_with_type_from P (meta_of_vref r) w = (Panic p, w).
Proof.
  intros H. inversion H as [|t0 Rb Rt Ra Rv Hz]. unfold meta_of_vref, vd_with_type_from.
  rewrite Rb, Rt, Ra. change (lenN (@nil mbyte) / 1) with 0.
  rewrite vc_with_type_from_zst; [eauto| |reflexivity]. exists 0. split; [lia|reflexivity].
Qed.

(** ** Clone, drop, into_vec, comparison *)

Lemma clone_new t d xs w l :
  Rep G t d xs -> Owns w (vv_own d ++ l) ->
  new_post w (vv_own d ++ l) []
    (let '(cs, ok, tr) := clone_seq G t xs (w_trace w) in if ok then Some (t, cs, tr) else None)
    (fun tr => exists cs, clone_seq G t xs (w_trace w) = (cs, false, tr))
    (vd_clone P G (VecCopy d (build_vtable t)) w).
Proof using HG HC HL.
  intros HR HO. unfold vd_clone. cbn [vc_data vc_vtable].
  destruct (vv_clone_rep P G HG t d xs w l HR HO) as (d' & w1 & -> & HR' & _ & HO1 & Ht1).
  rewrite (byte_chunks_rep P G HG t d xs HR), (byte_chunks_mut_rep P G HG t d' xs HR'), law_clone_raw.
  destruct (clone_seq G t xs (w_trace w)) as [[cs ok] tr] eqn:Es.
  pose proof (rep_sized _ _ _ _ HR) as Hz. rewrite <- Ht1 in Es.
  rewrite (clone_chunks_seq G t xs (map (enc G t) xs) w1 cs ok tr); [|now apply Forall_sized|apply map_length| |exact Es].
  2:{ apply Forall_forall. intros bs Hin. apply in_map_iff in Hin as (x & <- & _). apply enc_length. }
  pose proof (clone_seq_len G t xs _ cs ok tr Es) as (Hl & Hl' & _).
  pose proof (clone_seq_bal G t xs _ cs ok tr Es) as Hb. rewrite Ht1 in Hb.
  rewrite skipn_map, <- map_app.
  assert (Hlen : lenN (cs ++ skipn (List.length cs) xs) = lenN xs).
  { unfold lenN. rewrite app_length, skipn_length. lia. }
  rewrite (set_chunks_with_vals G t d' xs _ HR' Hlen).
  destruct ok.
  - rewrite (skipn_all2 xs) by (rewrite Hl' by reflexivity; lia). rewrite app_nil_r.
    eapply NP_ret; [rewrite set_tr_trace; reflexivity| | |].
    + apply (with_vals_rep G t d' xs _ HR'). apply lenN_eq. now apply Hl'.
    + rewrite with_vals_own. now apply Owns_set_tr.
    + rewrite set_tr_trace. exact Hb.
  - destruct (vv_drop_rep P G HG t (with_vals G t d' (cs ++ skipn (List.length cs) xs)) _ (set_tr tr w1)
                (vv_own d ++ l) (with_vals_rep G t d' xs _ HR' Hlen)) as (w2 & -> & HO2 & Ht2).
    { rewrite with_vals_own. now apply Owns_set_tr. }
    cbn [unwind]. apply (NP_panic w _ [] _ _ PUser w2 [] (owned_vals G t cs)); [|exact HO2|].
    { exists cs. rewrite Ht2, set_tr_trace. reflexivity. }
    intros q. specialize (Hb q). rewrite Ht2, set_tr_trace. revert Hb. cnts q. lia.
Qed.

Lemma clone_pois n k (vt : V) w : exists p, vd_clone P G (VecCopy (pois_vec n k) vt) w = (Panic p, w).
Proof.
  destruct (vc_clone_pois P n k vt w) as [p H]. unfold vc_clone in H. unfold vd_clone. cbn [vc_data] in *.
  destruct (vv_clone P (pois_vec n k) w) as [[d|q|u|] w'] eqn:E; try discriminate.
  cbn [retype] in *. eauto.
Qed.

Lemma drop_ok t d xs w l :
  Rep G t d xs -> Owns w (vv_own d ++ l) ->
  exists w', vd_drop P G (VecCopy d (build_vtable t)) w = (Ret tt, w') /\ Owns w' l /\
    w_trace w' = w_trace w ++ drops G t xs.
Proof using HG HQ HL.
  intros HR HO. unfold vd_drop. cbn [vc_data vc_vtable].
  rewrite (byte_chunks_mut_rep P G HG t d xs HR), law_drop.
  pose proof (rep_sized _ _ _ _ HR) as Hz.
  rewrite (drop_chunks_q G HQ t xs w) by now apply Forall_sized. unfold vc_drop. cbn [vc_data].
  destruct (vv_drop_rep P G HG t d xs (set_tr (w_trace w ++ drops G t xs) w) l HR) as (w' & -> & HO' & Ht).
  { now apply Owns_set_tr. }
  exists w'. rewrite Ht, set_tr_trace. auto.
Qed.

Lemma drop_pois n k (vt : V) w : exists p, vd_drop P G (VecCopy (pois_vec n k) vt) w = (Panic p, w).
Proof. unfold vd_drop. cbn [vc_data]. destruct (chunks_mut_pois P n k) as [p ->]. cbn. eauto. Qed.

Lemma into_vec_ok t d xs (vt : V) w l :
  Rep G t d xs -> Owns w (vv_own d ++ l) ->
  exists vec w', vd_into_vec P G t (VecCopy d vt) w = (Ret (Some vec), w) /\ vec_elems G t vec = Ret xs /\
    v_drop_nodrop (t_size (G t)) (t_align (G t)) vec w = (Ret tt, w') /\ Owns w' l /\
    w_trace w' = w_trace w.
Proof using HG.
  intros HR HO. unfold vd_into_vec, vc_into_vec. rewrite (vc_check_rep G _ _ _ _ _ HR), N.eqb_refl.
  cbn [vc_data]. rewrite (into_vec_unchecked_rep P G HG _ _ _ HR). cbn [obind].
  pose proof (typed_ok G t d xs HR) as Hok. rewrite (rep_own G HG t d xs HR) in HO.
  destruct (v_drop_ok (t_size (G t)) (t_align (G t)) (SVec (vv_blk d) (lenN xs) (vv_cap d) (encs G t xs)) w l)
    as (w' & HE' & HO' & Ht).
  { apply Hok. } { exact HO. }
  eexists _, w'. csplit; [reflexivity| |exact HE'|exact HO'|exact Ht].
  unfold vec_elems. cbn [v_len v_bytes]. apply read_vals_encs'. apply HR.
Qed.

Lemma into_pois t n k (vt : V) w :
  vd_into_vec P G t (VecCopy (pois_vec n k) vt) w = (Ret None, w) \/
  t = unit_id /\
  exists vec vs, vd_into_vec P G t (VecCopy (pois_vec n k) vt) w = (Ret (Some vec), w) /\
    vec_elems G t vec = Ret vs /\ v_drop_nodrop (t_size (G t)) (t_align (G t)) vec w = (Ret tt, w).
Proof using HG.
  unfold vd_into_vec, vc_into_vec, vc_check, vc_element_type_id. cbn [vc_data pois_vec vv_elem e_type_id].
  destruct (t =? unit_id) eqn:E.
  - apply N.eqb_eq in E as ->. right. split; [reflexivity|]. unfold into_vec_unchecked.
    cbn [vv_elem vv_blk vv_len vv_cap vv_bytes e_alignment].
    change (num_bytes (ElemInfo unit_id 0 1)) with 0. rewrite (wf_unit_size G HG), (wf_unit_align G HG).
    rewrite !debug_assert_true by reflexivity. cbn [obind]. eexists _, _. split; [reflexivity|].
    split; [unfold vec_elems; cbn [v_len v_bytes]; now apply read_vals_unit|].
    unfold v_drop_nodrop, dealloc. cbn [v_cap v_blk]. rewrite N.mul_0_r. reflexivity.
  - left. unfold vc_drop. cbn [vc_data]. fold (pois_vec n k).
    rewrite vv_drop_poisoned by apply pois_vec_poisoned. reflexivity.
Qed.

Lemma vr_eq_dref t x t' y :
  t_size (G t) <> 0 ->
  vr_eq G (dref G t (build_vtable t) x) (dref G t' (build_vtable t') y) =
  Ret ((t =? t') && t_eq (G t) x y).
Proof using HL.
  intros Hz. unfold vr_eq, dref. cbn [vr_type_id vr_bytes vr_vtable vt_as_ref].
  destruct (t =? t') eqn:E; [|reflexivity]. apply N.eqb_eq in E as <-. cbn [negb andb].
  rewrite law_eq. unfold call_eq. rewrite !from_bytes_enc by now apply is_value_sized. reflexivity.
Qed.

Lemma all_eq_dref t t' xs ys :
  t_size (G t) <> 0 ->
  all_eq G (map (dref G t (build_vtable t)) xs) (map (dref G t' (build_vtable t')) ys) =
  Ret (zip_eq G t t' xs ys).
Proof using HL.
  intros Hz. revert ys. induction xs as [|x xs IH]; intros [|y ys]; try reflexivity.
  cbn [map all_eq]. rewrite vr_eq_dref by exact Hz. cbn [obind]. unfold zip_eq in *.
  cbn [combine forallb fst snd]. destruct (t =? t') eqn:Et; [|reflexivity]. cbn [andb].
  destruct (t_eq (G t) x y); [|reflexivity]. cbn [andb]. rewrite IH.
  destruct xs; [reflexivity|]. destruct ys; reflexivity.
Qed.

Lemma eq_ok t d xs t' d' ys :
  Rep G t d xs -> Rep G t' d' ys ->
  vd_eq P G (VecCopy d (build_vtable t)) (VecCopy d' (build_vtable t')) = Ret (zip_eq G t t' xs ys).
Proof using HG HL.
  intros HR HR'. unfold vd_eq.
  rewrite (vd_iter_rep P G HG t d _ xs HR), (vd_iter_rep P G HG t' d' _ ys HR'). cbn [obind].
  apply all_eq_dref. apply HR.
Qed.

Lemma eq_pois t d vs t' d' vs' :
  vec_left G t d vs -> vec_left G t' d' vs' -> Poisoned d \/ Poisoned d' ->
  exists p, vd_eq P G (VecCopy d (build_vtable t)) (VecCopy d' (build_vtable t')) = Panic p.
Proof using HG.
  intros H H' Hp. unfold vd_eq.
  assert (Hi : forall t d vs, vec_left G t d vs ->
    (exists rs, vd_iter P (VecCopy d (build_vtable t)) = Ret rs) \/
    (exists p, vd_iter P (VecCopy d (build_vtable t)) = Panic p)).
  { clear - HG. intros t d vs H. inversion H as [xs HR|HP].
    - left. rewrite (vd_iter_rep P G HG t d _ xs HR). eauto.
    - right. rewrite (poisoned_shape d HP). apply vd_iter_pois. }
  destruct Hp as [Hp|Hp].
  - rewrite (poisoned_shape d Hp). destruct (vd_iter_pois P (vv_len d) (vv_cap d) (build_vtable t)) as [p ->].
    cbn. eauto.
  - destruct (Hi t d vs H) as [[rs ->]|[p ->]]; cbn [obind]; [|eauto].
    rewrite (poisoned_shape d' Hp). destruct (vd_iter_pois P (vv_len d') (vv_cap d') (build_vtable t')) as [p ->].
    cbn. eauto.
Qed.

End Ops2.
