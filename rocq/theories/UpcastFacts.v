(** * UpcastFacts: upcasting and bulk copies (C25, C56). *)

From Verif Require Export SliceFacts.

(** ** C25 *)

Section Upcast.
Context {V U : Type} (P : profile) (G : tenv) (buildV : tyid -> V) (buildU : tyid -> U) (f : V -> U).

Definition up3 {A} (r : outcome A * veccopy V * world) : outcome A * veccopy U * world :=
  let '(o, b, w) := r in (o, vc_upcast f b, w).
Definition up2 {A} (r : outcome A * veccopy V) : outcome A * veccopy U :=
  let '(o, b) := r in (o, vc_upcast f b).

Lemma on_data_up {A} (g : vecvoid -> world -> outcome A * vecvoid * world) b w :
  on_data g (vc_upcast f b) w = up3 (on_data g b w).
Proof. unfold on_data. destruct b as [d vt]. cbn. destruct (g d w) as [[o d'] w']. reflexivity. Qed.

Lemma full_up {A} (k : A -> obs) r : full k (up3 r) = up3 (full k r).
Proof. destruct r as [[o b] w]. reflexivity. Qed.
Lemma noworld_up {A} (k : A -> obs) r w : noworld k (up2 r) w = up3 (noworld k r w).
Proof. destruct r as [o b]. reflexivity. Qed.

Lemma as_slice_up b :
  vc_as_slice P (vc_upcast f b) =
  match vc_as_slice P b with
  | Ret s => Ret (sl_upcast f s) | Panic p => Panic p | UB u => UB u | Abort => Abort
  end.
Proof.
  unfold vc_as_slice. destruct b as [d vt]. cbn [vc_upcast vc_data vc_vtable].
  destruct (umul _ _ _); cbn [obind]; auto. destruct (_ <? _); reflexivity.
Qed.

(** A slice operation that does not look at the table. *)
Definition natural {A} (gV : slicecopy V -> outcome A * slicecopy V)
  (gU : slicecopy U -> outcome A * slicecopy U) : Prop :=
  forall s, gU (sl_upcast f s) = let '(o, s') := gV s in (o, sl_upcast f s').

Lemma with_mut_up {A} (gV : slicecopy V -> outcome A * slicecopy V)
  (gU : slicecopy U -> outcome A * slicecopy U) b :
  natural gV gU -> vc_with_mut_slice P gU (vc_upcast f b) = up2 (vc_with_mut_slice P gV b).
Proof.
  intros Hn. unfold vc_with_mut_slice. rewrite as_slice_up.
  destruct (vc_as_slice P b) as [s|p|u|]; cbn [retype up2]; try reflexivity.
  rewrite Hn. destruct (gV s) as [o s']. reflexivity.
Qed.

Lemma sl_len_up s : sl_len P (sl_upcast f s) = sl_len P s.
Proof. reflexivity. Qed.

Lemma swap_natural i j : natural (slm_swap P i j) (slm_swap P i j).
Proof.
  intros [data elem vt]. unfold slm_swap, sl_upcast. cbn [sl_data sl_elem sl_vtable].
  unfold sl_element_size. cbn [sl_elem]. destruct (i =? j); [reflexivity|].
  match goal with |- (match ?o with _ => _ end) = _ => destruct o end; reflexivity.
Qed.

Lemma rotl_natural k : natural (slm_rotate_left P k) (slm_rotate_left P k).
Proof.
  intros [data elem vt]. unfold slm_rotate_left, sl_upcast, sl_element_size. cbn [sl_data sl_elem sl_vtable].
  destruct (umul _ _ _); try reflexivity. destruct (_ <=? _); reflexivity.
Qed.
Lemma rotr_natural k : natural (slm_rotate_right P k) (slm_rotate_right P k).
Proof.
  intros [data elem vt]. unfold slm_rotate_right, sl_upcast, sl_element_size. cbn [sl_data sl_elem sl_vtable].
  destruct (umul _ _ _); try reflexivity. destruct (_ <=? _); reflexivity.
Qed.
Lemma copy_from_slice_natural t vs : natural (slm_copy_from_slice P G t vs) (slm_copy_from_slice P G t vs).
Proof.
  intros [data elem vt]. unfold slm_copy_from_slice.
  change (slm_as_slice P G t (sl_upcast f (SliceCopy data elem vt)))
    with (slm_as_slice P G t (SliceCopy data elem vt)).
  destruct (slm_as_slice _ _ _ _) as [[xs|]|p|u|]; try reflexivity. destruct (_ =? _); reflexivity.
Qed.

Lemma extend_loop_up vals : forall b w,
  vc_extend_loop P (map (fun p => mk_ref G buildU (fst p) (snd p)) vals) (vc_upcast f b) w =
  up3 (vc_extend_loop P (map (fun p => mk_ref G buildV (fst p) (snd p)) vals) b w).
Proof.
  induction vals as [|p vals IH]; intros b w; [reflexivity|].
  cbn [map vc_extend_loop].
  change (vc_element_size (vc_upcast f b)) with (vc_element_size b).
  change (vc_element_type_id (vc_upcast f b)) with (vc_element_type_id b).
  change (cr_size (mk_ref G buildU (fst p) (snd p))) with (cr_size (mk_ref G buildV (fst p) (snd p))).
  change (cr_type_id (mk_ref G buildU (fst p) (snd p))) with (cr_type_id (mk_ref G buildV (fst p) (snd p))).
  change (cr_bytes (mk_ref G buildU (fst p) (snd p))) with (cr_bytes (mk_ref G buildV (fst p) (snd p))).
  destruct (negb _); [reflexivity|]. destruct (negb _); [reflexivity|].
  rewrite on_data_up. destruct (on_data _ b w) as [[[a|q|u|] b'] w']; cbn [up3]; try reflexivity.
  apply IH.
Qed.

Lemma push_as_up t v b w : vc_push_as P G t v (vc_upcast f b) w = up3 (vc_push_as P G t v b w).
Proof.
  unfold vc_push_as. change (vc_check t (vc_upcast f b)) with (vc_check t b).
  destruct (vc_check t b); [|now destruct (drop_val G t v w)].
  match goal with |- context [on_data ?g (vc_upcast f b) w] =>
    rewrite (on_data_up g b w); destruct (on_data g b w) as [[o b'] w'] end. reflexivity.
Qed.

Lemma push_n_up n t v : forall b w,
  vc_push_n P G n t v (vc_upcast f b) w = up3 (vc_push_n P G n t v b w).
Proof.
  induction n as [|n IH]; intros b w; [reflexivity|]. cbn [vc_push_n].
  rewrite push_as_up. destruct (vc_push_as P G t v b w) as [[[x|p|u|] b'] w'];
    cbn [up3]; try reflexivity. apply IH.
Qed.

Lemma run_call_up c b w :
  run_call P G buildU c (vc_upcast f b) w = up3 (run_call P G buildV c b w).
Proof.
  destruct c as [ | | |t|n| |t v|t n v|t v|t g|t vs|t|t i|t i v|t|k|k|i t|i t v|t|t v|t v|hint vals|i j|k|k|a e t|k t];
    cbn [run_call].
  - reflexivity.
  - reflexivity.
  - reflexivity.
  - reflexivity.
  - unfold vc_reserve. rewrite on_data_up. apply full_up.
  - unfold vc_clear. rewrite on_data_up. apply full_up.
  - rewrite push_as_up. apply full_up.
  - unfold vc_resize. change (vc_check t (vc_upcast f b)) with (vc_check t b).
    change (vc_len (vc_upcast f b)) with (vc_len b).
    destruct (vc_check t b); [|reflexivity]. destruct (vc_len b <=? n).
    + unfold vc_reserve. rewrite on_data_up.
      match goal with |- context [on_data ?g b w] => destruct (on_data g b w) as [[[x|p|u|] b'] w'] end;
        cbn [up3]; try reflexivity.
      rewrite push_n_up. destruct (vc_push_n _ _ _ _ _ _ _) as [[o b''] w'']. reflexivity.
    + rewrite on_data_up. match goal with |- context [on_data ?g b w] => destruct (on_data g b w) as [[o b'] w'] end.
      reflexivity.
  - unfold vc_fill, vc_as_mut_slice_as. change (vc_check t (vc_upcast f b)) with (vc_check t b).
    change (vc_len (vc_upcast f b)) with (vc_len b). cbn [vc_upcast vc_data].
    destruct (vc_check t b); [|reflexivity]. destruct (read_vals _ _ _ _); reflexivity.
  - unfold vc_as_mut_slice_as. change (vc_check t (vc_upcast f b)) with (vc_check t b).
    change (vc_len (vc_upcast f b)) with (vc_len b). cbn [vc_upcast vc_data].
    destruct (vc_check t b); [|reflexivity]. destruct (read_vals _ _ _ _); reflexivity.
  - unfold vc_copy_from_slice. rewrite (with_mut_up _ _ b (copy_from_slice_natural t vs)). apply noworld_up.
  - reflexivity.
  - reflexivity.
  - unfold vc_set_as. change (vc_check t (vc_upcast f b)) with (vc_check t b).
    change (vc_len (vc_upcast f b)) with (vc_len b). cbn [vc_upcast vc_data].
    destruct (assert_ _); try reflexivity. destruct (vc_check t b); [|reflexivity].
    destruct (_ <? _); [reflexivity|]. destruct (read_val _ _ _); reflexivity.
  - change (vc_copy_into_vec G t (vc_upcast f b) w) with (vc_copy_into_vec G t b w).
    destruct (vc_copy_into_vec G t b w) as [[[vec|]|p|u|] w1]; try reflexivity.
    destruct (vec_elems G t vec); try reflexivity. destruct (vec_drop G t vec w1) as [o w2]. reflexivity.
  - unfold vc_rotate_left. rewrite on_data_up. apply full_up.
  - unfold vc_rotate_right. rewrite on_data_up. apply full_up.
  - unfold vc_get_ref. change (vc_len (vc_upcast f b)) with (vc_len b).
    destruct (debug_assert _ _); try reflexivity. cbn [obind vc_upcast vc_data].
    destruct (umul _ _ _); try reflexivity. cbn [obind]. destruct (_ <? _); reflexivity.
  - unfold vc_get_mut_copy, vc_get_mut. change (vc_len (vc_upcast f b)) with (vc_len b).
    destruct (debug_assert _ _); try reflexivity. cbn [obind vc_upcast vc_data].
    destruct (umul _ _ _); try reflexivity. cbn [obind]. destruct (_ <? _); try reflexivity.
    unfold cm_copy. cbn [cm_type_id].
    change (cr_type_id (mk_ref G buildU t v)) with t. change (cr_type_id (mk_ref G buildV t v)) with t.
    change (vc_element_type_id (VecCopy (vc_data b) (f (vc_vtable b)))) with (vc_element_type_id b).
    destruct (_ =? _); try reflexivity. cbn [cm_bytes].
    change (cr_bytes (mk_ref G buildU t v)) with (cr_bytes (mk_ref G buildV t v)).
    destruct (bytes_copy_from_slice _ _); reflexivity.
  - unfold vc_iter. cbn [vc_upcast vc_data]. destruct (vv_byte_chunks _ _) as [cs|p|u|]; try reflexivity.
    cbn [obind]. unfold pure, up3.
    assert (HD : forall cs, downcast_all G t
       (map (fun bs => CopyRef bs (vc_element_type_id (vc_upcast f b))
                        (e_alignment (vv_elem (vc_data b))) (vc_vtable (vc_upcast f b))) cs) =
       downcast_all G t
       (map (fun bs => CopyRef bs (vc_element_type_id b)
                        (e_alignment (vv_elem (vc_data b))) (vc_vtable b)) cs)).
    { clear. induction cs as [|c cs IH]; [reflexivity|]. cbn [map downcast_all]. unfold vc_upcast in *.
      rewrite IH. reflexivity. }
    now rewrite HD.
  - unfold vc_iter_mut_copy. cbn [vc_upcast vc_data]. destruct (vv_byte_chunks_mut _ _) as [cs|p|u|]; try reflexivity.
    assert (HD : forall cs, copy_each
       (map (fun bs => CopyMut bs (vc_element_type_id (vc_upcast f b))
                        (e_alignment (vv_elem (vc_data b))) (f (vc_vtable b))) cs) (mk_ref G buildU t v) =
       copy_each
       (map (fun bs => CopyMut bs (vc_element_type_id b)
                        (e_alignment (vv_elem (vc_data b))) (vc_vtable b)) cs) (mk_ref G buildV t v)).
    { clear. induction cs as [|c cs IH]; [reflexivity|]. cbn [map copy_each]. rewrite IH.
      unfold cm_copy. cbn [cm_type_id].
      change (cr_type_id (mk_ref G buildU t v)) with t. change (cr_type_id (mk_ref G buildV t v)) with t.
      change (vc_element_type_id (vc_upcast f b)) with (vc_element_type_id b).
      destruct (_ =? _); [|reflexivity]. cbn [cm_bytes].
      change (cr_bytes (mk_ref G buildU t v)) with (cr_bytes (mk_ref G buildV t v)).
      destruct (bytes_copy_from_slice _ _); reflexivity. }
    unfold vc_upcast in HD. cbn [vc_vtable]. rewrite HD. destruct (copy_each _ _); reflexivity.
  - unfold vc_push. change (vc_element_size (vc_upcast f b)) with (vc_element_size b).
    change (vc_element_type_id (vc_upcast f b)) with (vc_element_type_id b).
    change (cr_size (mk_ref G buildU t v)) with (cr_size (mk_ref G buildV t v)).
    change (cr_type_id (mk_ref G buildU t v)) with (cr_type_id (mk_ref G buildV t v)).
    change (cr_bytes (mk_ref G buildU t v)) with (cr_bytes (mk_ref G buildV t v)).
    destruct (_ =? _); [|reflexivity]. destruct (_ =? _); [|reflexivity].
    match goal with |- context [on_data ?g (vc_upcast f b) w] =>
      rewrite (on_data_up g b w); destruct (on_data g b w) as [[o b'] w'] end. reflexivity.
  - unfold vc_extend, vc_reserve. rewrite on_data_up.
    match goal with |- context [on_data ?g b w] => destruct (on_data g b w) as [[[x|p|u|] b'] w'] end;
      cbn [up3]; try reflexivity.
    rewrite extend_loop_up. apply full_up.
  - rewrite (with_mut_up _ _ b (swap_natural i j)). apply noworld_up.
  - rewrite (with_mut_up _ _ b (rotl_natural k)). apply noworld_up.
  - rewrite (with_mut_up _ _ b (rotr_natural k)). apply noworld_up.
  - rewrite as_slice_up. destruct (vc_as_slice P b) as [s|p|u|]; try reflexivity. cbn [obind].
    unfold sl_subslice. change (sl_element_size (sl_upcast f s)) with (sl_element_size s).
    destruct (scale_range _ _ _); try reflexivity. cbn [obind sl_upcast sl_data].
    destruct (index_with _ _); try reflexivity. 
  - rewrite as_slice_up. destruct (vc_as_slice P b) as [s|p|u|]; try reflexivity. cbn [obind].
    unfold sl_split_at. cbn [sl_upcast sl_elem sl_data]. destruct (umul _ _ _); try reflexivity. cbn [obind].
    destruct (_ <=? _); reflexivity.
Qed.
End Upcast.

Lemma c25_upcast_fact :
  forall (V U : Type) (P : profile) (G : tenv) (buildV : tyid -> V) (buildU : tyid -> U) (f : V -> U),
  forall b c w,
  exists o b' w',
    run_call P G buildV c b w = (o, b', w') /\
    run_call P G buildU c (vc_upcast f b) w = (o, vc_upcast f b', w').
Proof.
  intros V U P G buildV buildU f b c w. destruct (run_call P G buildV c b w) as [[o b'] w'] eqn:E.
  exists o, b', w'. split; [reflexivity|]. now rewrite (run_call_up P G buildV buildU f), E.
Qed.

Lemma c25_upcast_shows_fact :
  forall (V U : Type) (P : profile) (G : tenv) (f : V -> U),
  forall b t xs,
  shows G b t xs <-> shows G (vc_upcast f b) t xs.
Proof. intros V U P G f b t xs. reflexivity. Qed.

Lemma c25_consuming_fact :
  forall (V U : Type) (P : profile) (G : tenv) (f : V -> U),
  forall b w t,
  vc_into_vec P G t (vc_upcast f b) w = vc_into_vec P G t b w /\
  vc_drop P (vc_upcast f b) w = vc_drop P b w.
Proof. intros V U P G f b w t. split; reflexivity. Qed.

(** ** C56 *)

(** A [Vec] that user code made, in a memory that the library works in. *)
Lemma c56_append_copy_to_vec_fact :
  forall (V : Type) (P : profile) (G : tenv) (build : tyid -> V), wf_tenv G ->
  forall b w t xs,
  live_buffer P G build b w -> shows G b t xs ->
  forall t' cap ys vec w1,
  t_size (G t') <> 0 -> vec_make G t' cap ys w = (Ret vec, w1) ->
  (t' = t -> N.max (N.max (v_cap vec * 2) (lenN ys + lenN xs)) (min_non_zero_cap (t_size (G t))) *
             t_size (G t) <= max_alloc (t_align (G t))) ->
  exists vec' w2,
    vc_append_copy_to_vec G t' b vec w1 = (Ret (t' =? t), vec', w2) /\
    vec_elems G t' vec' = Ret (if t' =? t then ys ++ xs else ys) /\
    (t' <> t -> vec' = vec /\ w2 = w1) /\ w_trace w2 = w_trace w1.
Proof.
  intros V P G build HG b w t xs Hb Hs t' cap ys vec w1 Hz Hm Hroom. live Hb Hs HR Hc l HO.
  destruct (vec_make_spec G t' cap ys w _ Hz HO) as [(b & w1' & HE & Hok & HO1 & Ht)|[HE _]]; [|congruence].
  rewrite HE in Hm. injection Hm as <- <-. cbn [v_cap] in Hroom.
  destruct (append_copy_rep G t d vt xs t' b _ ys w1' _ HR Hz Hok HO1)
    as (o & b' & c' & ys' & w' & -> & Hok' & HO' & Htr & Hcase).
  exists (SVec b' (lenN ys') c' (encs G t' ys')), w'.
  assert (Hel : vec_elems G t' (SVec b' (lenN ys') c' (encs G t' ys')) = Ret ys').
  { unfold vec_elems. cbn [v_len v_bytes]. now apply read_vals_encs'. }
  destruct Hcase as [(-> & -> & -> & _)|[(-> & -> & _ & _ & _ & _ & _ & Hov)|(Hne & -> & -> & -> & -> & ->)]].
  - rewrite N.eqb_refl. csplit; auto. intros Hne. now elim Hne.
  - specialize (Hroom eq_refl). lia.
  - apply N.eqb_neq in Hne as Hne'. rewrite Hne'. csplit; auto.
Qed.

Lemma c56_copy_into_vec_fact :
  forall (V : Type) (P : profile) (G : tenv) (build : tyid -> V), wf_tenv G ->
  forall b w t xs,
  live_buffer P G build b w -> shows G b t xs ->
  N.max (lenN xs) (min_non_zero_cap (t_size (G t))) * t_size (G t) <= max_alloc (t_align (G t)) ->
  exists vec w',
    vc_copy_into_vec G t b w = (Ret (Some vec), w') /\ vec_elems G t vec = Ret xs /\
    w_trace w' = w_trace w.
Proof.
  intros V P G build HG b w t xs Hb Hs Hroom. live Hb Hs HR Hc l HO.
  pose proof (rep_sized _ _ _ _ HR) as Hz.
  destruct (append_copy_rep G t d vt xs t None 0 [] w (vv_own d ++ l) HR Hz) as (o & b' & c' & ys' & w' & HE & Hok' & HO' & Htr & Hcase).
  { apply svec_nil_ok. } { exact HO. }
  unfold vc_copy_into_vec.
  change (SVec None (lenN (@nil payload)) 0 (encs G t [])) with svec_nil in HE. rewrite HE.
  destruct Hcase as [(_ & -> & -> & _)|[(_ & -> & _ & _ & _ & _ & _ & Hov)|(Hne & _)]].
  - do 2 eexists. csplit; [reflexivity| |exact Htr].
    unfold vec_elems. cbn [v_len v_bytes]. now apply read_vals_encs'.
  - change (lenN (@nil payload)) with 0 in Hov. cbn [N.mul N.add] in Hov. lia.
  - now elim Hne.
Qed.

Lemma c56_copy_into_vec_other_type_fact :
  forall (V : Type) (P : profile) (G : tenv) (build : tyid -> V), wf_tenv G ->
  forall b w t xs t',
  live_buffer P G build b w -> shows G b t xs -> t' <> t ->
  vc_copy_into_vec G t' b w = (Ret None, w).
Proof.
  intros V P G build HG b w t xs t' Hb Hs Hne. live Hb Hs HR Hc l HO.
  unfold vc_copy_into_vec, vc_append_copy_to_vec. rewrite (as_slice_as_rep G _ _ _ _ _ HR).
  unfold typed. apply N.eqb_neq in Hne. rewrite Hne. reflexivity.
Qed.

(** The same for slices. *)
Lemma c56_slice_append_copy_to_vec_fact :
  forall (V : Type) (P : profile) (G : tenv), wf_tenv G ->
  forall t xs (vt : V) w t' cap ys vec w1,
  slice_ok G t xs -> wf_world w ->
  t_size (G t') <> 0 -> vec_make G t' cap ys w = (Ret vec, w1) ->
  (t' = t -> N.max (N.max (v_cap vec * 2) (lenN ys + lenN xs)) (min_non_zero_cap (t_size (G t))) *
             t_size (G t) <= max_alloc (t_align (G t))) ->
  exists vec' w2,
    sl_append_copy_to_vec P G t' (sl_from_slice G t xs vt) vec w1 = (Ret (t' =? t), vec', w2) /\
    vec_elems G t' vec' = Ret (if t' =? t then ys ++ xs else ys) /\
    (t' <> t -> vec' = vec /\ w2 = w1) /\ w_trace w2 = w_trace w1.
Proof.
  intros V P G HG t xs vt w t' cap ys vec w1 Hok Hw Hz Hm Hroom.
  pose proof (slice_srep G t xs vt Hok) as HS.
  destruct (vec_make_spec G t' cap ys w (w_live w) Hz ltac:(now split))
    as [(b & w1' & HE & Hvok & HO1 & Ht)|[HE _]]; [|congruence].
  rewrite HE in Hm. injection Hm as <- <-. cbn [v_cap] in Hroom.
  unfold sl_append_copy_to_vec. rewrite (sl_as_slice_rep P G HG t _ xs t' HS). unfold typed.
  destruct (N.eqb_spec t' t) as [->|Hne].
  - destruct (v_reserve_spec (t_size (G t)) (t_align (G t)) (lenN xs) _ w1' _ Hz Hvok HO1)
      as [[Hle HE1]|[Hgt [(b1 & w2 & HE1 & _ & _ & _ & _ & Ht1)|[HE1 Hcap]]]]; rewrite HE1.
    + do 2 eexists. csplit; [reflexivity| |intros H; now elim H|reflexivity].
      unfold vec_elems. cbn [v_len v_bytes]. rewrite <- encs_app, <- lenN_app. now apply read_vals_encs'.
    + do 2 eexists. csplit; [reflexivity| |intros H; now elim H|exact Ht1].
      unfold vec_elems. cbn [v_len v_bytes]. rewrite <- encs_app, <- lenN_app. now apply read_vals_encs'.
    + exfalso. specialize (Hroom eq_refl). unfold grow_cap in Hcap. cbn [v_len v_cap] in Hcap.
      pose proof isize_lt_usize. unfold max_alloc in *. destruct Hcap as [Hc|Hc]; nia.
  - do 2 eexists. csplit; [reflexivity| |auto|reflexivity].
    unfold vec_elems. cbn [v_len v_bytes]. now apply read_vals_encs'.
Qed.
