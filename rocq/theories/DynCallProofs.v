(** * DynCallProofs: every call on one [VecDyn] agrees with its meaning on lists, and accounts for
    every value. *)

From Verif Require Export DynPanicSpec DynLemmas.

Section Calls.
Context {V : Type} `{HD : HasDrop V} `{HCl : HasClone V} `{HE : HasPartialEq V} `{HH : HasHash V}
        `{HF : HasDebug V} `{HT : VTable V} {HL : Lawful V}.
Context (P : profile) (G : tenv) (HG : wf_tenv G) (HC : clones_ok G) (HQ : drops_quietly G).

(** What is left in the vector data [d], whose table is that of [t]. *)
Inductive vec_left (t : tyid) (d : vecvoid) : option (list payload) -> Prop :=
| VL_rep xs : Rep G t d xs -> vec_left t d (Some xs)
| VL_pois : Poisoned d -> vec_left t d None.

Definition left_vals (t : tyid) (left : option (list payload)) : list tval :=
  match left with Some xs => owned_vals G t xs | None => [] end.

(** What an operation on a vector of [xs] gives, when on lists it gives [spec] or leaves what [may]
    says. *)
Inductive loc_post {A} (t : tyid) (xs : list payload) (vt : V) (w : world) (l : list block)
    (gives : list tval) (spec : option (A * list payload * list event))
    (may : option (list payload) -> list event -> Prop)
  : outcome A * vecdyn V * world -> Prop :=
| LP_ret a ys d' w' :
    spec = Some (a, ys, w_trace w') -> Rep G t d' ys -> Owns w' (vv_own d' ++ l) ->
    bal G (owned_vals G t xs) gives (w_trace w) (owned_vals G t ys) [] [] (w_trace w') ->
    loc_post t xs vt w l gives spec may (Ret a, VecCopy d' vt, w')
| LP_panic p d' w' left leak lost :
    vec_left t d' left -> may left (w_trace w') -> Owns w' (vv_own d' ++ leak ++ l) ->
    bal G (owned_vals G t xs) gives (w_trace w) (left_vals t left) [] lost (w_trace w') ->
    loc_post t xs vt w l gives spec may (Panic p, VecCopy d' vt, w').

Lemma loc_ret_same {A} t xs vt w l d (a : A) may :
  Rep G t d xs -> Owns w (vv_own d ++ l) ->
  loc_post t xs vt w l [] (Some (a, xs, w_trace w)) may (Ret a, VecCopy d vt, w).
Proof. intros HR HO. eapply LP_ret; try eassumption; [reflexivity|]. balq. Qed.

Lemma loc_panic_same {A} t xs vt w l d p (spec : option (A * list payload * list event))
    (may : option (list payload) -> list event -> Prop) :
  Rep G t d xs -> Owns w (vv_own d ++ l) -> may (Some xs) (w_trace w) ->
  loc_post t xs vt w l [] spec may (Panic p, VecCopy d vt, w).
Proof.
  intros HR HO Hm. apply (LP_panic t xs vt w l [] spec may p d w (Some xs) [] []).
  - apply VL_rep. exact HR.
  - exact Hm.
  - exact HO.
  - cbn [left_vals]. balq.
Qed.

(** A panic that leaves a poisoned vector and leaks what was there. *)
Lemma loc_poison {A} t xs vt w l d' w' leak p (spec : option (A * list payload * list event))
    (may : option (list payload) -> list event -> Prop) :
  Poisoned d' -> Owns w' (leak ++ l) -> w_trace w' = w_trace w -> may None (w_trace w) ->
  loc_post t xs vt w l [] spec may (Panic p, VecCopy d' vt, w').
Proof.
  intros HP HO Ht Hm. apply (LP_panic t xs vt w l [] spec may p d' w' None leak (owned_vals G t xs)).
  - apply VL_pois. exact HP.
  - rewrite Ht. exact Hm.
  - rewrite vv_own_poisoned by exact HP. exact HO.
  - intros q. cbn [left_vals]. rewrite Ht, !cnt_nil. lia.
Qed.

Lemma loc_full {A} (k : A -> dobs) t xs vt w l gives spec may r :
  loc_post t xs vt w l gives spec may r ->
  loc_post t xs vt w l gives
    (match spec with Some (a, ys, tr) => Some (k a, ys, tr) | None => None end) may (dfull k r).
Proof.
  intros [a ys d' w' -> HR HO HB | p d' w' left leak lost HV Hm HO HB]; cbn [dfull obind].
  - eapply LP_ret; try eassumption. reflexivity.
  - eapply LP_panic; eassumption.
Qed.

(** A by-value argument that is dropped at the end of the function. *)
Lemma loc_owning {A} t xs vt w l spec may t' x (r : outcome A * vecdyn V * world) :
  loc_post t xs vt w l [] spec may r ->
  loc_post t xs vt w l (owned_vals G t' [x])
    (match spec with Some (a, ys, tr) => Some (a, ys, tr ++ drops G t' [x]) | None => None end)
    (fun left tr' => exists tr1, may left tr1 /\ tr' = tr1 ++ drops G t' [x])
    (owning G t' x r).
Proof using HQ.
  intros [a ys d' w' -> HR HO HB | p d' w' left leak lost HV Hm HO HB]; cbn [owning];
    rewrite drop_val_q by exact HQ; cbn [obind unwind].
  - eapply LP_ret.
    + rewrite set_tr_trace. reflexivity.
    + exact HR.
    + apply Owns_set_tr. exact HO.
    + intros q. specialize (HB q). rewrite set_tr_trace. revert HB. cnts q. lia.
  - eapply LP_panic with (leak := leak) (lost := lost).
    + exact HV.
    + eexists. split; [exact Hm|]. apply set_tr_trace.
    + apply Owns_set_tr. exact HO.
    + intros q. specialize (HB q). rewrite set_tr_trace. revert HB. cnts q. lia.
Qed.

Lemma loc_spec {A} t xs vt w l gives (spec spec' : option (A * list payload * list event))
    (may may' : option (list payload) -> list event -> Prop) r :
  spec = spec' -> (forall left tr, may left tr -> may' left tr) ->
  loc_post t xs vt w l gives spec may r -> loc_post t xs vt w l gives spec' may' r.
Proof.
  intros -> Hm [a ys d' w' Hs HR HO HB | p d' w' left leak lost HV Hl HO HB].
  - eapply LP_ret; eassumption.
  - eapply LP_panic; eauto.
Qed.

(** ** Rebuilt data *)

Lemma splice_one_with_vals t d xs i v :
  Rep G t d xs -> i < lenN xs ->
  vv_splice (i * t_size (G t)) (enc G t v) d = with_vals G t d (list_set xs (N.to_nat i) v).
Proof.
  intros HR Hi. unfold vv_splice, with_vals. rewrite (rep_bytes _ _ _ _ HR).
  rewrite splice_encs_one by exact Hi. reflexivity.
Qed.

Lemma splice_all_with_vals t d xs ys :
  Rep G t d xs -> lenN ys = lenN xs -> vv_splice 0 (encs G t ys) d = with_vals G t d ys.
Proof.
  intros HR Hl. unfold vv_splice, with_vals. rewrite splice_all; [reflexivity|].
  rewrite (rep_bytes _ _ _ _ HR), !encs_length, Hl. reflexivity.
Qed.

Lemma set_chunks_with_vals t d xs ys :
  Rep G t d xs -> lenN ys = lenN xs ->
  vv_set_chunks d (map (enc G t) ys) = with_vals G t d ys.
Proof.
  intros HR Hl. unfold vv_set_chunks, with_vals. rewrite concat_encs.
  rewrite skipnN_all; [rewrite app_nil_r; reflexivity|].
  rewrite (rep_bytes _ _ _ _ HR), !encs_length, Hl. lia.
Qed.

Lemma lenN_eq {A B} (a : list A) (b : list B) : List.length a = List.length b -> lenN a = lenN b.
Proof. unfold lenN. intros ->. reflexivity. Qed.

(** ** Reading *)

Definition dref (t : tyid) (vt : V) (v : payload) : vref V :=
  ValRef (enc G t v) t (t_align (G t)) (VRef vt).

Lemma vd_get_bytes t d xs i v :
  Rep G t d xs -> nthN xs i = Some v ->
  vv_get_bytes P i d = Ret (enc G t v) /\ vv_get_bytes_mut P i d = Ret (i * t_size (G t), enc G t v).
Proof using HG.
  intros HR Hi. pose proof (nthN_some _ _ _ Hi) as Hlt.
  pose proof (rep_sized _ _ _ _ HR) as Hz.
  pose proof (rep_cap _ _ _ _ HR). pose proof (rep_max _ _ _ _ HR).
  pose proof (max_alloc_le (t_align (G t))). pose proof isize_lt_usize.
  assert (Hb : (i + 1) * t_size (G t) <= usize_max) by nia.
  assert (Hb1 : i + 1 <= usize_max) by nia.
  unfold vv_get_bytes, vv_get_bytes_mut.
  rewrite (byte_slice_rep P G HG t d xs HR), (rep_len _ _ _ _ HR).
  rewrite (rep_num_bytes G HG t d xs HR).
  rewrite debug_assert_true by (apply N.ltb_lt; exact Hlt). cbn [obind].
  rewrite index_byte_range_ok by assumption. cbn [obind fst snd].
  rewrite (index_elem G t xs i v Hi Hz). split; reflexivity.
Qed.

Lemma vd_get_rep t d (vt : V) xs i v :
  Rep G t d xs -> nthN xs i = Some v -> vd_get P i (VecCopy d vt) = Ret (dref t vt v).
Proof using HG.
  intros HR Hi. pose proof (nthN_some _ _ _ Hi) as Hlt. unfold vd_get, vd_len, vc_len.
  cbn [vc_data vc_vtable]. rewrite (rep_len _ _ _ _ HR).
  rewrite debug_assert_true by (apply N.ltb_lt; exact Hlt). cbn [obind].
  rewrite (proj1 (vd_get_bytes t d xs i v HR Hi)). cbn [obind].
  unfold vc_element_type_id. cbn [vc_data]. rewrite (rep_elem _ _ _ _ HR). reflexivity.
Qed.

Lemma vd_get_mut_rep t d (vt : V) xs i v :
  Rep G t d xs -> nthN xs i = Some v ->
  vd_get_mut P i (VecCopy d vt) =
  Ret (i * t_size (G t), ValMut (enc G t v) t (t_align (G t)) (VRef vt)).
Proof using HG.
  intros HR Hi. pose proof (nthN_some _ _ _ Hi) as Hlt. unfold vd_get_mut, vd_len, vc_len.
  cbn [vc_data vc_vtable]. rewrite (rep_len _ _ _ _ HR).
  rewrite debug_assert_true by (apply N.ltb_lt; exact Hlt). cbn [obind].
  rewrite (proj2 (vd_get_bytes t d xs i v HR Hi)). cbn [obind fst snd].
  unfold vc_element_type_id. cbn [vc_data]. rewrite (rep_elem _ _ _ _ HR). reflexivity.
Qed.

Lemma vd_get_out t d (vt : V) xs i :
  Rep G t d xs -> nthN xs i = None -> fits P (i + 1) (t_size (G t)) ->
  exists p, vd_get P i (VecCopy d vt) = Panic p /\ vd_get_mut P i (VecCopy d vt) = Panic p.
Proof using HG.
  intros HR Hi Hf.
  assert (Hlen : lenN xs <= i).
  { unfold nthN in Hi. apply nth_error_None in Hi. unfold lenN. lia. }
  pose proof (rep_sized _ _ _ _ HR) as Hz.
  unfold vd_get, vd_get_mut, vd_len, vc_len, vv_get_bytes, vv_get_bytes_mut.
  cbn [vc_data vc_vtable]. rewrite (rep_len _ _ _ _ HR).
  assert (E : i <? lenN xs = false) by (apply N.ltb_ge; exact Hlen). rewrite E.
  unfold debug_assert. destruct (debug_assertions P) eqn:ED; cbn [obind]; [eauto|].
  rewrite (byte_slice_rep P G HG t d xs HR), (rep_num_bytes G HG t d xs HR). cbn [obind].
  destruct (index_byte_range_fits P (t_size (G t)) i Hz Hf) as [[_ ->]|[_ ->]]; cbn [obind fst snd];
    [|eauto].
  rewrite index_range_out; [cbn [obind]; eauto|]. rewrite encs_length. nia.
Qed.

Lemma dref_downcast t (vt : V) v t' :
  t_size (G t) <> 0 -> vr_downcast G t' (dref t vt v) = Ret (typed t' t v).
Proof.
  intros Hz. unfold vr_downcast, dref. cbn [vr_type_id vr_bytes]. unfold typed.
  rewrite (N.eqb_sym t t'). destruct (t' =? t) eqn:E; [|reflexivity].
  apply N.eqb_eq in E as ->. rewrite from_bytes_enc by (apply is_value_sized; exact Hz). reflexivity.
Qed.

Lemma vd_iter_rep t d (vt : V) xs :
  Rep G t d xs -> vd_iter P (VecCopy d vt) = Ret (map (dref t vt) xs).
Proof using HG.
  intros HR. unfold vd_iter. cbn [vc_data vc_vtable].
  rewrite (byte_chunks_rep P G HG t d xs HR). cbn [obind]. rewrite map_map.
  unfold vc_element_type_id. cbn [vc_data]. rewrite (rep_elem _ _ _ _ HR). reflexivity.
Qed.

Lemma downcast_all_dref t vt xs t' :
  t_size (G t) <> 0 ->
  vr_downcast_all G t' (map (dref t vt) xs) = Ret (if lenN xs =? 0 then Some [] else typed t' t xs).
Proof.
  intros Hz. induction xs as [|x xs IH]; [reflexivity|].
  cbn [map vr_downcast_all]. rewrite dref_downcast by exact Hz. cbn [obind].
  assert (E : lenN (x :: xs) =? 0 = false) by (apply N.eqb_neq; rewrite lenN_cons; lia).
  rewrite E. unfold typed in *. destruct (t' =? t) eqn:Et; [|reflexivity].
  rewrite IH. cbn [obind]. destruct (lenN xs =? 0) eqn:E0; [|reflexivity].
  apply N.eqb_eq, lenN_zero in E0. subst. reflexivity.
Qed.

Lemma hash_all_dref t xs :
  t_size (G t) <> 0 ->
  hash_all G (map (dref t (build_vtable t)) xs) = Ret (flat_map (t_hash (G t)) xs).
Proof using HL.
  intros Hz. induction xs as [|x xs IH]; [reflexivity|]. cbn [map hash_all flat_map].
  unfold vr_hash, dref. cbn [vr_vtable vt_as_ref vr_bytes]. rewrite law_hash. unfold call_hash.
  rewrite from_bytes_enc by (apply is_value_sized; exact Hz). cbn [obind].
  unfold dref in IH. rewrite IH. reflexivity.
Qed.

Lemma fmt_all_dref t xs :
  t_size (G t) <> 0 ->
  fmt_all G (map (dref t (build_vtable t)) xs) = Ret (map (t_fmt (G t)) xs).
Proof using HL.
  intros Hz. induction xs as [|x xs IH]; [reflexivity|]. cbn [map fmt_all].
  unfold vr_fmt, dref. cbn [vr_vtable vt_as_ref vr_bytes]. rewrite law_fmt. unfold call_fmt.
  rewrite from_bytes_enc by (apply is_value_sized; exact Hz). cbn [obind].
  unfold dref in IH. rewrite IH. reflexivity.
Qed.

Lemma join_concat ss : join_entries ss = String.concat ", " ss.
Proof.
  induction ss as [|s ss IH]; [reflexivity|]. destruct ss as [|s' ss]; [reflexivity|].
  cbn [join_entries String.concat]. cbn [join_entries String.concat] in IH. rewrite IH. reflexivity.
Qed.

(** ** Pushing *)

Lemma push_as_q t d xs v w l :
  Rep G t d xs -> Owns w (vv_own d ++ l) ->
  (exists d' w', apply_unchecked P G t (push_closure G t v) d w = (Ret tt, d', w') /\
     Rep G t d' (xs ++ [v]) /\ Owns w' (vv_own d' ++ l) /\ w_trace w' = w_trace w) \/
  (exists w', apply_unchecked P G t (push_closure G t v) d w = (Panic PCapacity, vv_default, w') /\
     Owns w' l /\ w_trace w' = w_trace w ++ drops G t [v] ++ drops G t xs /\
     no_room G t (lenN xs) (lenN xs + 1)).
Proof using HG HQ.
  intros H HO.
  pose proof (rep_sized _ _ _ _ H) as Hz.
  pose proof (typed_ok G t d xs H) as Hok.
  assert (HO' : Owns w (v_own (t_size (G t)) (t_align (G t))
                          (SVec (vv_blk d) (lenN xs) (vv_cap d) (encs G t xs)) ++ l)).
  { unfold v_own. cbn. now rewrite <- (rep_own G HG t d xs H). }
  assert (Hlen : lenN (xs ++ [v]) = lenN xs + 1) by (rewrite lenN_app; reflexivity).
  assert (Henc : encs G t xs ++ enc G t v = encs G t (xs ++ [v])) by now rewrite encs_app, encs_one.
  unfold apply_unchecked. rewrite (into_vec_unchecked_rep P G HG t d xs H).
  unfold push_closure, v_push.
  rewrite v_capacity_sized by exact Hz. cbn [v_len v_cap].
  destruct (lenN xs =? vv_cap d) eqn:E.
  - apply N.eqb_eq in E.
    destruct (v_grow_spec (t_size (G t)) (t_align (G t)) 1 _ w l Hz Hok HO')
      as [(b & w' & HE' & Hm & _ & Hpt & HO2 & Ht)|[HE' Hcap]]; rewrite HE'.
    + left. set (c := grow_cap _ _ _) in *. cbn [v_blk v_len v_cap v_bytes].
      assert (Hc : lenN xs + 1 <= c).
      { unfold c, grow_cap. cbn [v_cap v_len]. lia. }
      rewrite Henc, <- Hlen.
      destruct (vv_from_vec_ok G HG t b (xs ++ [v]) c w') as (HF' & HR & HOw); try assumption; try lia.
      { apply Hpt. nia. }
      rewrite HF'. do 2 eexists. split; [reflexivity|]. rewrite HOw. auto.
    + right. rewrite drop_val_q by exact HQ. cbn [unwind].
      destruct (vec_drop_q G HQ t (vv_blk d) (vv_cap d) xs (set_tr (w_trace w ++ drops G t [v]) w) l)
        as (w' & EV & HOw & Ht).
      { apply Forall_sized. exact Hz. }
      { exact (so_ptr _ _ _ Hok). }
      { apply Owns_set_tr. exact HO'. }
      rewrite EV. cbn [unwind]. eexists. split; [reflexivity|]. split; [exact HOw|].
      split; [rewrite Ht, set_tr_trace, app_assoc; reflexivity|].
      pose proof (rep_max _ _ _ _ H) as Hmx. pose proof (max_alloc_le (t_align (G t))).
      pose proof isize_lt_usize.
      apply (no_room_of G HG t d xs (lenN xs + 1) (t_size (G t)) H Hz); [lia|lia|].
      unfold grow_cap in Hcap. cbn [v_len v_cap] in Hcap. destruct Hcap as [Hcap|Hcap]; nia.
  - left. apply N.eqb_neq in E. cbn [v_blk v_len v_cap v_bytes]. rewrite Henc, <- Hlen.
    pose proof (rep_cap _ _ _ _ H).
    destruct (vv_from_vec_ok G HG t (vv_blk d) (xs ++ [v]) (vv_cap d) w) as (HF' & HR & HOw); try apply H.
    { lia. }
    rewrite HF'. do 2 eexists. split; [reflexivity|]. rewrite HOw, <- (rep_own G HG t d xs H). auto.
Qed.

Lemma push_as_loc t d (vt : V) xs v w l :
  Rep G t d xs -> Owns w (vv_own d ++ l) ->
  loc_post t xs vt w l (owned_vals G t [v]) (Some (true, xs ++ [v], w_trace w))
    (fun left tr => no_room G t (lenN xs) (lenN xs + 1) /\ left = None /\
                    tr = w_trace w ++ drops G t [v] ++ drops G t xs)
    (vc_push_as P G t v (VecCopy d vt) w).
Proof using HG HQ.
  intros HR HO. rewrite (vc_push_as_eq P G t d vt xs v w HR).
  destruct (push_as_q t d xs v w l HR HO) as [(d' & w' & -> & HR' & HO' & Ht)|(w' & -> & HO' & Ht & Hroom)];
    cbn [obind].
  - eapply LP_ret; [rewrite Ht; reflexivity|exact HR'|exact HO'|].
    intros q. rewrite Ht. cnts q. lia.
  - apply (LP_panic t xs vt w l _ _ _ PCapacity vv_default w' None [] []).
    + apply VL_pois, vv_default_poisoned.
    + auto.
    + rewrite vv_own_poisoned by apply vv_default_poisoned. exact HO'.
    + intros q. cbn [left_vals]. rewrite Ht. cnts q. lia.
Qed.

(** Pushing [n] clones of [x] may stop because a clone panics, or because there is no room. *)
Definition clones_stop (t : tyid) (x : payload) (n : nat) (xs : list payload) (tr : list event)
    (left : option (list payload)) (tr' : list event) : Prop :=
  (exists cs, clone_seq G t (repeat x n) tr = (cs, false, tr') /\ left = Some (xs ++ cs)) \/
  exists cs c tr1 k, (k < n)%nat /\
    clone_seq G t (repeat x (S k)) tr = (cs ++ [c], true, tr1) /\
    no_room G t (lenN xs + N.of_nat k) (lenN xs + N.of_nat k + 1) /\
    left = None /\ tr' = tr1 ++ drops G t [c] ++ drops G t (xs ++ cs).

(** A loop of pushes for which there is room. *)
Lemma push_clones_room {U} (vt : U) n t d xs x w l cs ok tr :
  Rep G t d xs -> Owns w (vv_own d ++ l) -> lenN xs + N.of_nat n <= vv_cap d ->
  clone_seq G t (repeat x n) (w_trace w) = (cs, ok, tr) ->
  exists d' w', vd_push_clones P G n t x (VecCopy d vt) w =
      (if ok then Ret tt else Panic PUser, VecCopy d' vt, w') /\
    Rep G t d' (xs ++ cs) /\ vv_cap d' = vv_cap d /\ Owns w' (vv_own d' ++ l) /\ w_trace w' = tr.
Proof using HG.
  revert d xs w cs ok tr. induction n as [|n IH]; intros d xs w cs ok tr HR HO Hcap Hs;
    cbn [repeat clone_seq vd_push_clones] in *.
  - injection Hs as <- <- <-. exists d, w. rewrite app_nil_r. auto.
  - rewrite clone_val_eq. destruct (t_clone (G t) (w_trace w) x) as [c|] eqn:Ec.
    + destruct (clone_seq G t (repeat x n) (w_trace w ++ [EvClone t x c])) as [[cs' ok'] tr'] eqn:Es.
      injection Hs as <- <- <-.
      set (w1 := set_tr (w_trace w ++ [EvClone t x c]) w).
      assert (HO1 : Owns w1 (vv_own d ++ l)) by (apply Owns_set_tr; exact HO).
      unfold vc_push_as. rewrite (vc_check_rep G _ _ _ _ _ HR), N.eqb_refl. unfold on_data.
      cbn [vc_data vc_vtable].
      pose proof (push_as_rep P G HG t d xs c w1 l HR HO1) as Hp. unfold push_closure in Hp.
      destruct Hp as [d' w' HR' HO' Ht' _ Hsame|o w' Hfull _ _]; [|exfalso; lia].
      destruct (Hsame ltac:(lia)) as (Hw & Hc & _). cbn [obind].
      destruct (IH d' (xs ++ [c]) w' cs' ok' tr' HR' HO') as (d2 & w2 & E & HR2 & Hc2 & HO2 & Ht2).
      { rewrite lenN_app, Hc. change (lenN [c]) with 1. lia. }
      { subst w'. unfold w1. rewrite set_tr_trace. exact Es. }
      exists d2, w2. rewrite <- app_assoc in HR2. cbn [app] in HR2.
      csplit; [exact E|exact HR2|congruence|exact HO2|exact Ht2].
    + injection Hs as <- <- <-. cbn [retype]. exists d, w. rewrite app_nil_r. auto.
Qed.

Lemma push_clones_loc n t d vt xs x w l :
  Rep G t d xs -> Owns w (vv_own d ++ l) ->
  loc_post t xs vt w l []
    (let '(cs, ok, tr) := clone_seq G t (repeat x n) (w_trace w) in
     if ok then Some (tt, xs ++ cs, tr) else None)
    (clones_stop t x n xs (w_trace w))
    (vd_push_clones P G n t x (VecCopy d vt) w).
Proof using HG HQ.
  revert d xs w. induction n as [|n IH]; intros d xs w HR HO; cbn [repeat clone_seq vd_push_clones].
  - rewrite app_nil_r. apply loc_ret_same; assumption.
  - rewrite clone_val_eq. destruct (t_clone (G t) (w_trace w) x) as [c|] eqn:Ec.
    + set (w1 := set_tr (w_trace w ++ [EvClone t x c]) w).
      assert (HO1 : Owns w1 (vv_own d ++ l)) by (apply Owns_set_tr; exact HO).
      pose proof (push_as_loc t d vt xs c w1 l HR HO1) as Hp.
      destruct (clone_seq G t (repeat x n) (w_trace w ++ [EvClone t x c])) as [[cs ok] tr'] eqn:Es.
      remember (vc_push_as P G t c (VecCopy d vt) w1) as r eqn:Er. clear Er.
      destruct Hp as [a ys d' w' Hsp HR' HO' HB | p d' w' left leak lost HV Hm HO' HB]; cbn [retype].
      * injection Hsp as <- <- Htr.
        specialize (IH d' (xs ++ [c]) w' HR' HO').
        rewrite <- Htr, Es in IH.
        destruct IH as [a ys d2 w2 Hsp2 HR2 HO2 HB2 | p d2 w2 left leak lost HV2 Hm2 HO2 HB2].
        -- destruct ok; [|discriminate]. injection Hsp2 as <- <- Htr2.
           rewrite Htr2. rewrite <- app_assoc in HR2. cbn [app] in HR2.
           eapply LP_ret; [reflexivity|exact HR2|exact HO2|].
           intros q. specialize (HB q). specialize (HB2 q). revert HB HB2.
           rewrite <- Htr. unfold w1. rewrite set_tr_trace.
           rewrite (owned_vals_app G t xs (c :: cs)), (owned_vals_cons G t c cs). cnts q. lia.
        -- eapply LP_panic with (leak := leak) (lost := lost); [exact HV2| |exact HO2|].
           ++ unfold w1 in Hm2. rewrite ?set_tr_trace in Hm2.
              destruct Hm2 as [(cs' & Ec' & ->)|(cs' & c' & tr1 & k & Hk & Ec' & Hroom & -> & ->)].
              ** left. exists (c :: cs'). rewrite <- app_assoc. cbn [repeat clone_seq].
                 rewrite Ec, Ec'. auto.
              ** right. exists (c :: cs'), c', tr1, (S k). split; [lia|].
                 change (repeat x (S (S k))) with (x :: repeat x (S k)). cbn [clone_seq].
                 rewrite Ec, Ec'. split; [reflexivity|].
                 rewrite <- app_assoc. rewrite lenN_app in Hroom. change (lenN [c]) with 1 in Hroom.
                 replace (lenN xs + N.of_nat (S k)) with (lenN xs + 1 + N.of_nat k) by lia. auto.
           ++ intros q. specialize (HB q). specialize (HB2 q). revert HB HB2.
              rewrite <- Htr. unfold w1. rewrite set_tr_trace. cnts q. lia.
      * eapply LP_panic with (leak := leak) (lost := lost); [exact HV| |exact HO'|].
        -- destruct Hm as (Hroom & -> & ->). right.
           exists [], c, (w_trace w ++ [EvClone t x c]), 0%nat. cbn [repeat clone_seq app].
           rewrite Ec, app_nil_r. unfold w1. rewrite set_tr_trace. csplit; auto; [lia|].
           rewrite N.add_0_r. exact Hroom.
        -- intros q. specialize (HB q). revert HB. unfold w1. rewrite set_tr_trace. cnts q. lia.
    + cbn [retype]. apply loc_panic_same; [assumption|assumption|]. left. exists [].
      cbn [repeat clone_seq]. rewrite Ec, app_nil_r. auto.
Qed.

Lemma rotl_perm {A} k (xs : list A) : Permutation xs (rotl k xs).
Proof. rewrite <- (firstn_skipn (N.to_nat k) xs) at 1. apply Permutation_app_comm. Qed.

(** ** Every call *)

(** The vector from [clone_into_vec], filled or not. *)
Lemma clone_into_vec_q t d (vt : V) xs w l :
  Rep G t d xs -> Owns w l ->
  let '(cs, ok, tr) := clone_seq G t xs (w_trace w) in
  (exists b c w', vd_clone_into_vec G t (VecCopy d vt) w =
       (Ret (Some (SVec b (lenN cs) c (encs G t cs))), w') /\ ok = true /\ lenN cs <= c /\
       ptr_ok b (c * t_size (G t)) /\
       Owns w' (owned b (c * t_size (G t)) (t_align (G t)) ++ l) /\ w_trace w' = tr) \/
  (exists w', vd_clone_into_vec G t (VecCopy d vt) w = (Panic PUser, w') /\ ok = false /\
       Owns w' l /\ w_trace w' = tr ++ drops G t cs).
Proof using HG HC HQ.
  intros HR HO. destruct (clone_seq G t xs (w_trace w)) as [[cs ok] tr] eqn:Es.
  pose proof (rep_sized _ _ _ _ HR) as Hz.
  unfold vd_clone_into_vec, vd_append_cloned_to_vec.
  rewrite (as_slice_as_rep G t d vt xs t HR). unfold typed. rewrite N.eqb_refl.
  unfold vd_len, vc_len. cbn [vc_data]. rewrite (rep_len _ _ _ _ HR).
  pose proof (svec_nil_ok (t_size (G t)) (t_align (G t))) as Hok.
  assert (HO' : Owns w (v_own (t_size (G t)) (t_align (G t)) svec_nil ++ l)) by exact HO.
  assert (Hfin : forall b c w1, lenN xs <= c -> c * t_size (G t) <= max_alloc (t_align (G t)) ->
     ptr_ok b (c * t_size (G t)) -> w_trace w1 = w_trace w ->
     Owns w1 (owned b (c * t_size (G t)) (t_align (G t)) ++ l) ->
     let r := into_new_vec G t
       (let '(o, vec2, w2) := vec_extend_clones G t xs (SVec b 0 c []) w1 in
        (let! _ := o in Ret true, vec2, w2)) in
     (exists b c w', r = (Ret (Some (SVec b (lenN cs) c (encs G t cs))), w') /\ ok = true /\
       lenN cs <= c /\ ptr_ok b (c * t_size (G t)) /\
       Owns w' (owned b (c * t_size (G t)) (t_align (G t)) ++ l) /\ w_trace w' = tr) \/
     (exists w', r = (Panic PUser, w') /\ ok = false /\
       Owns w' l /\ w_trace w' = tr ++ drops G t cs)).
  { intros b c w1 Hc Hm Hpt Ht1 HO1. cbv zeta. unfold vec_extend_clones.
    assert (Hok1 : svec_ok (t_size (G t)) (t_align (G t)) (SVec b 0 c [])).
    { split; cbn; [exact Hpt|lia|exact Hm]. }
    destruct (v_reserve_spec (t_size (G t)) (t_align (G t)) (lenN xs) (SVec b 0 c []) w1 l Hz Hok1 HO1)
      as [[_ ->]|[Hbad _]]; [|cbn in Hbad; lia].
    rewrite <- Ht1 in Es. rewrite (clone_vals_seq G t xs w1 cs ok tr Es).
    cbn [v_blk v_len v_cap v_bytes app]. rewrite N.add_0_l.
    destruct (clone_seq_len G t xs _ cs ok tr Es) as (L1 & L2 & L3).
    assert (Hlc : lenN cs <= c) by (unfold lenN in *; lia).
    destruct ok; cbn [obind into_new_vec].
    - left. exists b, c. eexists. csplit; try reflexivity; try assumption.
      apply Owns_set_tr. exact HO1.
    - right.
      destruct (vec_drop_q G HQ t b c cs (set_tr tr w1) l) as (w' & E & HOw & Htw).
      { eapply clone_seq_values; [exact HC|exact Es]. }
      { exact Hpt. }
      { apply Owns_set_tr. exact HO1. }
      rewrite E. eexists. csplit; try reflexivity; try assumption. }
  destruct (v_reserve_spec (t_size (G t)) (t_align (G t)) (lenN xs) svec_nil w l Hz Hok HO')
    as [[Hle ->]|[Hgt [(b & w1 & -> & Hm & _ & Hpt & HO1 & Ht1)|[-> Hcap]]]].
  - destruct (Hfin None 0 w) as [Hx|Hx]; auto.
    { unfold max_alloc. lia. }
    { intros Hc0. lia. }
  - cbn [v_len v_bytes svec_nil].
    set (c := grow_cap _ _ _) in *.
    destruct (Hfin b c w1) as [Hx|Hx]; auto.
    unfold c, grow_cap. cbn [v_len v_cap svec_nil]. lia.
  - exfalso. unfold grow_cap in Hcap. cbn [v_len v_cap svec_nil] in Hcap, Hgt.
    pose proof (rep_max _ _ _ _ HR) as Hmx. pose proof (rep_cap _ _ _ _ HR).
    pose proof (max_alloc_le (t_align (G t))). pose proof isize_lt_usize.
    assert (Hfit : lenN xs * t_size (G t) <= max_alloc (t_align (G t))) by nia.
    destruct Hcap as [Hcap|Hcap]; [nia|].
    assert (max_alloc (t_align (G t)) < lenN xs * t_size (G t)); [|lia].
    apply (min_cap_small (t_size (G t)) (lenN xs) (t_size (G t)) (t_align (G t)) Hz); [lia|lia|apply (wf_legal G HG)|].
    lia.
Qed.

Ltac same_panic :=
  apply loc_panic_same; [assumption|assumption|cbn [call_leaves]; cbv zeta; auto 10].

Lemma run_dcall_loc c t d xs w l :
  Rep G t d xs -> Owns w (vv_own d ++ l) -> dcall_typed G c ->
  dcall_in_range P c (VecCopy d (build_vtable t)) ->
  loc_post t xs (build_vtable t) w l (step_gives G (DCall 0 c)) (dyn_call G c t xs (w_trace w))
    (call_leaves G c t xs (w_trace w))
    (run_dcall P G c (VecCopy d (build_vtable t)) w).
Proof using HG HC HQ HL.
  intros HR HO Hty Hin. set (vt := build_vtable t) in *.
  pose proof (rep_sized _ _ _ _ HR) as Hz.
  pose proof (law_drop t : drop_fn vt = _) as Hdf.
  assert (Hes : vd_element_size (VecCopy d vt) = t_size (G t)).
  { exact (vc_size_rep G HG t d vt xs HR). }
  destruct c as [ | | |t'|t'|t' i|t' i v|i t'|t'|t' v|t' n v|t' v| |k|k|i j|t' vs|t'| | ];
    cbn [run_dcall dyn_call step_gives dcall_in_range dcall_typed call_leaves] in *.
  - (* VLen *)
    unfold vd_len, vc_len. cbn [vc_data]. rewrite (rep_len _ _ _ _ HR). apply loc_ret_same; assumption.
  - (* VIsEmpty *)
    unfold vd_is_empty, vc_is_empty. cbn [vc_data]. rewrite (rep_len _ _ _ _ HR).
    apply loc_ret_same; assumption.
  - (* VTypeId *)
    unfold vd_element_type_id. rewrite (vc_type_rep G t d vt xs HR). apply loc_ret_same; assumption.
  - (* VCheck *)
    unfold vd_check. rewrite (vc_check_rep G t d xs vt t' HR). apply loc_ret_same; assumption.
  - (* VReadAs *)
    unfold vd_as_slice_as. rewrite (as_slice_as_rep G t d vt xs t' HR). cbn [obind].
    apply loc_ret_same; assumption.
  - (* VGetAs *)
    unfold vd_get_ref_as. rewrite (get_as_rep G t d vt xs t' i HR).
    destruct (nthN xs i) as [x|] eqn:Ei; cbn [obind]; [apply loc_ret_same; assumption|same_panic].
  - (* VSetAs *)
    unfold vd_set_as. rewrite (get_as_rep G t d vt xs t' i HR).
    destruct (nthN xs i) as [old|] eqn:Ei.
    + unfold typed. destruct (t' =? t) eqn:Et.
      * apply N.eqb_eq in Et as ->. rewrite assign_val_q by exact HQ.
        pose proof (nthN_some _ _ _ Ei) as Hlt. cbn [vc_data vc_vtable dfull obind].
        rewrite (splice_one_with_vals t d xs i v HR Hlt).
        eapply LP_ret.
        -- rewrite set_tr_trace. reflexivity.
        -- apply (with_vals_rep G t d xs _ HR). apply lenN_list_set.
        -- rewrite with_vals_own. apply Owns_set_tr. exact HO.
        -- intros q. rewrite set_tr_trace.
           pose proof (cnt_perm q _ _ (owned_vals_list_set G t xs _ v old Ei)) as Hp.
           revert Hp. cnts q. lia.
      * rewrite drop_val_q by exact HQ. cbn [dfull obind].
        eapply LP_ret; [rewrite set_tr_trace; reflexivity|exact HR|apply Owns_set_tr; exact HO|].
        intros q. rewrite set_tr_trace. cnts q. lia.
    + rewrite drop_val_q by exact HQ. cbn [unwind dfull obind].
      apply (LP_panic t xs vt w l _ _ _ PAssert d _ (Some xs) [] []).
      * apply VL_rep. exact HR.
      * rewrite set_tr_trace. cbn [call_leaves]. auto.
      * apply Owns_set_tr. exact HO.
      * intros q. cbn [left_vals]. rewrite set_tr_trace. cnts q. lia.
  - (* VGet *)
    rewrite Hes in Hin. destruct (nthN xs i) as [x|] eqn:Ei.
    + rewrite (vd_get_rep t d vt xs i x HR Ei). cbn [obind].
      rewrite dref_downcast by exact Hz. cbn [obind]. apply loc_ret_same; assumption.
    + destruct (vd_get_out t d vt xs i HR Ei Hin) as (p & -> & _). cbn [obind].
      same_panic.
  - (* VIter *)
    rewrite (vd_iter_rep t d vt xs HR). cbn [obind]. rewrite downcast_all_dref by exact Hz.
    cbn [obind]. fold (lenN xs). apply loc_ret_same; assumption.
  - (* VPushAs *)
    unfold vd_push_as. destruct (t' =? t) eqn:Et.
    + apply N.eqb_eq in Et as ->.
      pose proof (loc_full ABool _ _ _ _ _ _ _ _ _ (push_as_loc t d vt xs v w l HR HO)) as HY.
      eapply loc_spec; [reflexivity| |exact HY]. intros left tr (H1 & -> & ->). cbn [call_leaves]. auto.
    + unfold vc_push_as. rewrite (vc_check_rep G t d xs vt t' HR), Et.
      rewrite drop_val_q by exact HQ. cbn [obind dfull].
      eapply LP_ret; [rewrite set_tr_trace; reflexivity|exact HR|apply Owns_set_tr; exact HO|].
      intros q. rewrite set_tr_trace. cnts q. lia.
  - (* VResize *)
    unfold vd_resize. fold (lenN xs).
    assert (HX : loc_post t xs vt w l []
      (if t' =? t then
         if lenN xs <=? n then
           let '(cs, ok, tr') := clone_seq G t (repeat v (N.to_nat (n - lenN xs))) (w_trace w) in
           if ok then Some (true, xs ++ cs, tr') else None
         else Some (true, firstn (N.to_nat n) xs, w_trace w ++ drops G t (skipn (N.to_nat n) xs))
       else Some (false, xs, w_trace w))
      (fun left tr => t' = t /\ lenN xs <= n /\
         ((no_room G t (lenN xs) n \/ odd_growth_to G t (lenN xs) n) /\ left = None /\
            tr = w_trace w \/
          (exists cs, clone_seq G t (repeat v (N.to_nat (n - lenN xs))) (w_trace w) = (cs, false, tr) /\
             left = Some (xs ++ cs)) \/
          usize_max < (n - lenN xs) * chunks_of G t /\
          clones_stop t v (N.to_nat (n - lenN xs)) xs (w_trace w) left tr))
      (if vc_check t' (VecCopy d vt)
       then
        if vd_len (VecCopy d vt) <=? n
        then
         match vc_reserve P (n - vd_len (VecCopy d vt)) (VecCopy d vt) w with
         | (Ret _, self1, w1) =>
             let '(o, self2, w2) :=
               vd_push_clones P G (N.to_nat (n - vd_len (VecCopy d vt))) t' v self1 w1 in
             (let! _ := o in Ret true, self2, w2)
         | (o, self1, w1) => (retype o, self1, w1)
         end
        else
         match vv_byte_chunks_mut P (vc_data (VecCopy d vt)) with
         | Ret cs =>
             match drop_chunks G (drop_fn (vc_vtable (VecCopy d vt))) (skipnN n cs) w with
             | (Ret _, w1) =>
                 let '(o, self1, w2) := on_data (vv_truncate P n) (VecCopy d vt) w1 in
                 (let! _ := o in Ret true, self1, w2)
             | (o, w1) => (retype o, VecCopy d vt, w1)
             end
         | o => (retype o, VecCopy d vt, w)
         end
       else (Ret false, VecCopy d vt, w))).
    { rewrite (vc_check_rep G t d xs vt t' HR). destruct (t' =? t) eqn:Et.
      2:{ apply loc_ret_same; assumption. }
      apply N.eqb_eq in Et as ->. unfold vd_len, vc_len. cbn [vc_data vc_vtable].
      rewrite (rep_len _ _ _ _ HR). destruct (lenN xs <=? n) eqn:En.
      - unfold vc_reserve, on_data. cbn [vc_data vc_vtable].
        apply N.leb_le in En.
        destruct (vv_reserve_left P G HG t d xs (n - lenN xs) w l HR HO)
          as [(d' & w' & -> & HR' & HO' & Ht & Hcap)|(p & d' & w' & leak & -> & HP & HO' & Ht & Hroom)].
        + destruct (N.le_gt_cases ((n - lenN xs) * chunks_of G t) usize_max) as [Hn|Hn].
          { destruct (clone_seq G t (repeat v (N.to_nat (n - lenN xs))) (w_trace w)) as [[cs ok] tr] eqn:Es.
            destruct (push_clones_room vt (N.to_nat (n - lenN xs)) t d' xs v w' l cs ok tr HR' HO')
              as (d2 & w2 & -> & HR2 & _ & HO2 & Ht2).
            { specialize (Hcap Hn). lia. }
            { rewrite Ht. exact Es. }
            assert (HB2 : bal G (owned_vals G t xs) [] (w_trace w) (owned_vals G t (xs ++ cs)) [] [] (w_trace w2)).
            { rewrite Ht2. pose proof (clone_seq_bal _ _ _ _ _ _ _ Es) as HB. intros q. specialize (HB q).
              revert HB. rewrite owned_vals_app. cnts q. lia. }
            destruct ok; cbn [obind].
            - eapply LP_ret; [rewrite Ht2; reflexivity|exact HR2|exact HO2|exact HB2].
            - eapply LP_panic with (leak := []) (lost := []) (left := Some (xs ++ cs));
                [apply VL_rep; exact HR2| |exact HO2|exact HB2].
              csplit; [reflexivity|exact En|]. right. left. exists cs. rewrite Ht2. auto. }
          pose proof (push_clones_loc (N.to_nat (n - lenN xs)) t d' vt xs v w' l HR' HO') as Hp.
          rewrite Ht in Hp.
          remember (vd_push_clones P G (N.to_nat (n - lenN xs)) t v (VecCopy d' vt) w') as r eqn:Er.
          clear Er.
          destruct (clone_seq G t (repeat v (N.to_nat (n - lenN xs))) (w_trace w)) as [[cs ok] tr].
          destruct Hp as [a ys d2 w2 Hsp2 HR2 HO2 HB2 | p d2 w2 left leak lost HV2 Hm2 HO2 HB2];
            cbn [obind]; rewrite Ht in HB2.
          * destruct ok; [|discriminate]. injection Hsp2 as <- <- ->.
            eapply LP_ret; [reflexivity|exact HR2|exact HO2|exact HB2].
          * eapply LP_panic with (leak := leak) (lost := lost); [exact HV2| |exact HO2|exact HB2].
            csplit; auto.
        + cbn [retype]. eapply loc_poison; try eassumption. cbv beta.
          replace (lenN xs + (n - lenN xs)) with n in Hroom by lia. auto 10.
      - apply N.leb_gt in En. rewrite (byte_chunks_mut_rep P G HG t d xs HR).
        rewrite Hdf. unfold skipnN. rewrite skipn_map.
        rewrite drop_chunks_q by (exact HQ || apply Forall_sized; exact Hz).
        unfold on_data. cbn [vc_data vc_vtable].
        destruct (vv_truncate_rep P G HG t d xs n
                    (set_tr (w_trace w ++ drops G t (skipn (N.to_nat n) xs)) w) l HR)
          as (d' & E & HR' & _ & _ & HO').
        { apply Owns_set_tr. exact HO. }
        { lia. }
        rewrite E. cbn [obind]. eapply LP_ret; [reflexivity|exact HR'|exact HO'|].
        intros q. rewrite set_tr_trace. unfold firstnN.
        rewrite <- (firstn_skipn (N.to_nat n) xs) at 1. cnts q. lia. }
    pose proof (loc_full ABool _ _ _ _ _ _ _ _ _ (loc_owning _ _ _ _ _ _ _ t' v _ HX)) as HY.
    eapply loc_spec; [| |exact HY].
    + destruct (t' =? t) eqn:Et; [|reflexivity]. apply N.eqb_eq in Et as ->.
      destruct (lenN xs <=? n); [|rewrite <- app_assoc; reflexivity].
      destruct (clone_seq G t _ (w_trace w)) as [[cs [|]] tr]; reflexivity.
    + intros left tr (tr1 & (-> & Hle & Hm) & ->). cbn [call_leaves]. fold (lenN xs).
      split; [reflexivity|]. split; [exact Hle|].
      destruct Hm as [(Hroom & -> & ->)|[(cs & Ec & ->)|
        (Hn & [(cs & Ec & ->)|(cs & c & tr2 & k & Hk & Ec & Hroom & -> & ->)])]].
      * left. auto.
      * right. left. exists cs, tr1. auto.
      * right. left. exists cs, tr1. auto.
      * right. right. split; [exact Hn|]. exists cs, c, tr2, k. csplit; auto. rewrite <- !app_assoc. reflexivity.
  - (* VFill *)
    unfold vd_fill. rewrite (as_slice_as_rep G t d vt xs t' HR). unfold typed.
    destruct (t' =? t) eqn:Et.
    + apply N.eqb_eq in Et as ->.
      destruct (replace_seq G t (repeat v (List.length xs)) xs (w_trace w)) as [[ys ok] tr] eqn:Es.
      rewrite (fill_vals_seq G HQ t v xs w ys ok tr Es). cbn [vc_data vc_vtable].
      pose proof (replace_seq_len G t _ _ _ _ _ _ Es) as Hl. apply lenN_eq in Hl.
      rewrite (splice_all_with_vals t d xs ys HR Hl).
      assert (HX : loc_post t xs vt w l [] (if ok then Some (true, ys, tr) else None)
                (fun left tr' => ok = false /\ left = Some ys /\ tr' = tr)
                (let! _ := if ok then Ret tt else Panic PUser in Ret true,
                 VecCopy (with_vals G t d ys) vt, set_tr tr w)).
      { pose proof (replace_seq_bal _ _ _ _ _ _ _ _ Es) as HB. destruct ok; cbn [obind].
        - eapply LP_ret; [reflexivity|apply (with_vals_rep G t d xs ys HR Hl)| |exact HB].
          rewrite with_vals_own. apply Owns_set_tr. exact HO.
        - apply (LP_panic t xs vt w l _ _ _ PUser _ _ (Some ys) [] []).
          + apply VL_rep. apply (with_vals_rep G t d xs ys HR Hl).
          + rewrite set_tr_trace. auto.
          + rewrite with_vals_own. apply Owns_set_tr. exact HO.
          + exact HB. }
      pose proof (loc_full ABool _ _ _ _ _ _ _ _ _ (loc_owning _ _ _ _ _ _ _ t v _ HX)) as HY.
      eapply loc_spec; [| |exact HY]; [destruct ok; reflexivity|].
      intros left tr' (tr1 & (-> & -> & ->) & ->). split; [reflexivity|].
      exists ys, tr. auto.
    + pose proof (loc_ret_same t xs vt w l d false (fun _ _ => False) HR HO) as HX.
      eapply loc_spec; [reflexivity| |exact (loc_full ABool _ _ _ _ _ _ _ _ _ (loc_owning _ _ _ _ _ _ _ t' v _ HX))].
      intros left tr (tr1 & [] & _).
  - (* VClear *)
    unfold vd_clear. cbn [vc_data vc_vtable]. rewrite (byte_chunks_mut_rep P G HG t d xs HR).
    rewrite Hdf.
    rewrite drop_chunks_q by (exact HQ || apply Forall_sized; exact Hz).
    unfold on_data. cbn [vc_data vc_vtable].
    destruct (vv_clear_rep P G HG t d xs (set_tr (w_trace w ++ drops G t xs) w) l HR)
      as (d' & E & HR' & _ & _ & HO').
    { apply Owns_set_tr. exact HO. }
    rewrite E. cbn [dfull obind dunit]. eapply LP_ret; [reflexivity|exact HR'|exact HO'|].
    intros q. rewrite set_tr_trace. cnts q. lia.
  - (* VRotL *)
    rewrite Hes in Hin. unfold vd_rotate_left, vc_rotate_left, on_data. cbn [vc_data vc_vtable].
    fold (lenN xs).
    destruct (N.leb_spec (t_align (G t)) 8192) as [Ha|Ha].
    + destruct (k <=? lenN xs) eqn:Ek.
      * apply N.leb_le in Ek.
        destruct (vv_rotate_left_rep P G HG t d xs k w l HR HO Ha Ek) as (d' & -> & HR' & _ & _ & HO').
        cbn [dfull obind dunit]. eapply LP_ret; [reflexivity|exact HR'|exact HO'|].
        intros q. rewrite (cnt_perm q _ _ (owned_vals_perm G t _ _ (rotl_perm k xs))). cnts q. lia.
      * apply N.leb_gt in Ek.
        destruct (vv_rotate_out P G HG t d xs k w l HR HO Ha Ek) as (p & w' & _ & -> & _ & HO' & Ht).
        { eapply fits_weaken; [|exact Hin]. pose proof (chunks_le_size G HG t 1). unfold chunks_of in *. lia. }
        cbn [dfull obind]. apply (loc_poison t xs vt w l vv_default w' [] p); cbn [call_leaves]; cbv zeta; auto 10 using vv_default_poisoned.
    + destruct (vv_rotate_big P G HG t d xs k w HR Ha) as [-> _]. cbn [dfull obind].
      same_panic.
  - (* VRotR *)
    rewrite Hes in Hin. unfold vd_rotate_right, vc_rotate_right, on_data. cbn [vc_data vc_vtable].
    fold (lenN xs).
    destruct (N.leb_spec (t_align (G t)) 8192) as [Ha|Ha].
    + destruct (k <=? lenN xs) eqn:Ek.
      * apply N.leb_le in Ek.
        destruct (vv_rotate_right_rep P G HG t d xs k w l HR HO Ha Ek) as (d' & -> & HR' & _ & _ & HO').
        cbn [dfull obind dunit]. eapply LP_ret; [reflexivity|exact HR'|exact HO'|].
        intros q. rewrite (cnt_perm q _ _ (owned_vals_perm G t _ _ (rotl_perm (lenN xs - k) xs))).
        unfold rotr. fold (lenN xs). cnts q. lia.
      * apply N.leb_gt in Ek.
        destruct (vv_rotate_out P G HG t d xs k w l HR HO Ha Ek) as (p & w' & _ & _ & -> & HO' & Ht).
        { eapply fits_weaken; [|exact Hin]. pose proof (chunks_le_size G HG t 1). unfold chunks_of in *. lia. }
        cbn [dfull obind]. apply (loc_poison t xs vt w l vv_default w' [] p); cbn [call_leaves]; cbv zeta; auto 10 using vv_default_poisoned.
    + destruct (vv_rotate_big P G HG t d xs k w HR Ha) as [_ ->]. cbn [dfull obind].
      same_panic.
  - (* VSwap *)
    rewrite Hes in Hin. destruct Hin as [Hi Hj]. fold (lenN xs).
    destruct ((i =? j) || ((i <? lenN xs) && (j <? lenN xs))) eqn:E.
    + assert (EW : vc_with_mut_slice P (slm_swap P i j) (VecCopy d vt) =
                   (Ret tt, VecCopy (with_vals G t d (swapN i j xs)) vt)).
      { apply (with_mut_slice_ret P G HG t d vt xs).
        - exact HR.
        - apply lenN_eq, Permutation_length, swapN_perm.
        - intros s Hs. apply orb_true_iff in E. destruct E as [E|E].
          + apply N.eqb_eq in E as ->. unfold slm_swap. rewrite N.eqb_refl.
            assert (Hsame : swapN j j xs = xs).
            { unfold swapN. destruct (nthN xs j) as [x|] eqn:Ex; [|reflexivity].
              rewrite (list_set_same xs) by exact Ex. apply list_set_same. exact Ex. }
            rewrite Hsame. f_equal. unfold sl_vals. destruct s as [sd se sv].
            pose proof (srep_data _ _ _ _ Hs) as Hsd. cbn in *. rewrite Hsd. reflexivity.
          + apply andb_true_iff in E as [E1 E2]. apply N.ltb_lt in E1, E2.
            apply (slm_swap_rep P G HG); assumption. }
      rewrite EW. cbn [dfull obind dunit].
      eapply LP_ret; [reflexivity| | |].
      * apply (with_vals_rep G t d xs _ HR). apply lenN_eq, Permutation_length, swapN_perm.
      * rewrite with_vals_own. exact HO.
      * intros q. rewrite (cnt_perm q _ _ (owned_vals_perm G t _ _ (swapN_perm i j xs))). cnts q. lia.
    + apply orb_false_iff in E as [E1 E2]. apply N.eqb_neq in E1. apply andb_false_iff in E2.
      assert (Ho : lenN xs <= i \/ lenN xs <= j).
      { destruct E2 as [E2|E2]; apply N.ltb_ge in E2; auto. }
      destruct (with_mut_slice_same P G HG t d vt xs (slm_swap P i j) HR) as (s & a & Hs & Hf & ->).
      { intros s Hs. destruct (slm_swap_out P G HG t s xs i j Hs E1 Ho Hi Hj) as [p ->]. eauto. }
      destruct (slm_swap_out P G HG t s xs i j Hs E1 Ho Hi Hj) as [p Hp].
      rewrite Hp in Hf. injection Hf as <-. cbn [dfull obind].
      assert (Ho' : nthN xs i = None \/ nthN xs j = None).
      { destruct Ho as [Ho|Ho]; [left|right]; apply nthN_none; exact Ho. }
      same_panic.
  - (* VCloneFromSlice *)
    unfold vd_with_mut_slice, vd_as_slice.
    destruct (vc_as_slice_rep P G HG t d vt xs HR) as (s & -> & Hs & Hsv & Hse).
    unfold dsm_clone_from_slice. rewrite (sl_as_slice_rep P G HG t s xs t' Hs). unfold typed.
    assert (Hsame : vv_splice 0 (sl_data s) d = d).
    { rewrite (srep_data _ _ _ _ Hs). rewrite (splice_all_with_vals t d xs xs HR eq_refl).
      apply with_vals_same. exact HR. }
    destruct (t' =? t) eqn:Et.
    + apply N.eqb_eq in Et as ->.
      destruct (Nat.eqb_spec (List.length vs) (List.length xs)) as [El|El].
      * assert (E : lenN xs =? lenN vs = true) by (apply N.eqb_eq, lenN_eq; symmetry; exact El).
        rewrite E.
        destruct (replace_seq G t vs xs (w_trace w)) as [[ys ok] tr] eqn:Es.
        rewrite (clone_from_vals_seq G HQ t xs vs w ys ok tr Es).
        pose proof (replace_seq_len G t _ _ _ _ _ _ Es) as Hl. apply lenN_eq in Hl.
        cbn [sl_data vc_data vc_vtable]. rewrite (splice_all_with_vals t d xs ys HR Hl).
        pose proof (replace_seq_bal _ _ _ _ _ _ _ _ Es) as HB. destruct ok; cbn [obind dfull].
        -- eapply LP_ret; [reflexivity|apply (with_vals_rep G t d xs ys HR Hl)| |exact HB].
           rewrite with_vals_own. apply Owns_set_tr. exact HO.
        -- apply (LP_panic t xs vt w l _ _ _ PUser _ _ (Some ys) [] []).
           ++ apply VL_rep. apply (with_vals_rep G t d xs ys HR Hl).
           ++ rewrite set_tr_trace. split; [reflexivity|]. right. split; [exact El|]. eauto.
           ++ rewrite with_vals_own. apply Owns_set_tr. exact HO.
           ++ exact HB.
      * assert (E : lenN xs =? lenN vs = false) by (apply N.eqb_neq; unfold lenN; lia).
        rewrite E. cbn [dfull obind vc_data vc_vtable]. rewrite Hsame. same_panic.
    + cbn [dfull obind vc_data vc_vtable]. rewrite Hsame. apply loc_ret_same; assumption.
  - (* VCloneIntoVec *)
    destruct (t' =? t) eqn:Et.
    + apply N.eqb_eq in Et as ->.
      pose proof (clone_into_vec_q t d vt xs w (vv_own d ++ l) HR HO) as Hq.
      destruct (clone_seq G t xs (w_trace w)) as [[cs ok] tr] eqn:Es.
      pose proof (clone_seq_values G HC t _ _ _ _ _ Es) as Hvals.
      pose proof (clone_seq_bal _ _ _ _ _ _ _ Es) as HB.
      destruct Hq as [(b & c & w' & -> & -> & Hlc & Hpt & HO' & Ht)|(w' & -> & -> & HO' & Ht)].
      * unfold vec_elems. cbn [v_len v_bytes]. rewrite read_vals_encs' by exact Hz.
        destruct (vec_drop_q G HQ t b c cs w' (vv_own d ++ l) Hvals Hpt HO') as (w2 & -> & HO2 & Ht2).
        cbn [obind]. eapply LP_ret; [rewrite Ht2, Ht; reflexivity|exact HR|exact HO2|].
        intros q. specialize (HB q). revert HB. rewrite Ht2, Ht. cnts q. lia.
      * cbn [retype]. apply (LP_panic t xs vt w l _ _ _ PUser d w' (Some xs) [] []).
        -- apply VL_rep. exact HR.
        -- split; [reflexivity|]. split; [reflexivity|]. exists cs, tr. auto.
        -- exact HO'.
        -- intros q. specialize (HB q). revert HB. cbn [left_vals]. rewrite Ht. cnts q. lia.
    + unfold vd_clone_into_vec, vd_append_cloned_to_vec.
      rewrite (as_slice_as_rep G t d vt xs t' HR). unfold typed. rewrite Et.
      cbn [into_new_vec]. rewrite vec_drop_nil. cbn [obind]. apply loc_ret_same; assumption.
  - (* VHash *)
    unfold vd_hash. rewrite (vd_iter_rep t d vt xs HR). cbn [obind]. unfold vt.
    rewrite hash_all_dref by exact Hz. cbn [obind]. apply loc_ret_same; assumption.
  - (* VFmt *)
    unfold vd_fmt. rewrite (vd_iter_rep t d vt xs HR). cbn [obind]. unfold vt.
    rewrite fmt_all_dref by exact Hz. cbn [obind]. unfold debug_list. rewrite join_concat.
    apply loc_ret_same; assumption.
Qed.

End Calls.
