(** * DynLoud: programs over [VecDyn]s and owned values whose destructors may panic. *)

From Verif Require Export DynFacts7.

(** ** A run with panicking destructors beside the run in which they return *)

(** As [w'] but with further blocks still allocated. *)
Definition more (w' w'' : world) : Prop :=
  w_trace w'' = w_trace w' /\ exists lk, forall k, Owns w' k -> Owns w'' (lk ++ k).

Lemma more_refl w : more w w.
Proof. split; [reflexivity|]. exists []. auto. Qed.

(** The same, or the process was aborted. *)
Definition sa2 {A} (q l : outcome A * world) : Prop := l = q \/ exists w, l = (Abort, w).
Definition sa3 {A B} (q l : outcome A * B * world) : Prop := l = q \/ exists b w, l = (Abort, b, w).

(** The same, or aborted, or a panic where the quiet run returns. *)
Definition lo2 {A} (q l : outcome A * world) : Prop :=
  l = q \/ (exists w, l = (Abort, w)) \/
  exists a w' p w'', q = (Ret a, w') /\ l = (Panic p, w'') /\ more w' w''.
Definition lo3 {A B} (q l : outcome A * B * world) : Prop :=
  l = q \/ (exists b w, l = (Abort, b, w)) \/
  exists a b w' p w'', q = (Ret a, b, w') /\ l = (Panic p, b, w'') /\ more w' w''.

Lemma sa2_same {A} (q : outcome A * world) : sa2 q q.
Proof. now left. Qed.
Lemma sa3_same {A B} (q : outcome A * B * world) : sa3 q q.
Proof. now left. Qed.
Lemma lo2_same {A} (q : outcome A * world) : lo2 q q.
Proof. now left. Qed.
Lemma lo3_same {A B} (q : outcome A * B * world) : lo3 q q.
Proof. now left. Qed.
Lemma sa2_lo {A} (q l : outcome A * world) : sa2 q l -> lo2 q l.
Proof. intros [H|H]; [now left|right; now left]. Qed.
Lemma sa3_lo {A B} (q l : outcome A * B * world) : sa3 q l -> lo3 q l.
Proof. intros [H|H]; [now left|right; now left]. Qed.

(** The result of a destructor that runs while unwinding. *)
Lemma unwind_lo {A B} p (q l : outcome A * world) :
  lo2 q l ->
  sa2 (let '(o, w) := q in (unwind (B := B) p o, w)) (let '(o, w) := l in (unwind p o, w)).
Proof.
  intros [->|[[w ->]|(a & w' & p' & w'' & -> & -> & _)]]; [apply sa2_same| |]; right; eauto.
Qed.
Lemma unwind_lo3 {A B C} p (b : C) (q l : outcome A * world) :
  lo2 q l ->
  sa3 (let '(o, w) := q in (unwind (B := B) p o, b, w)) (let '(o, w) := l in (unwind p o, b, w)).
Proof.
  intros [->|[[w ->]|(a & w' & p' & w'' & -> & -> & _)]]; [apply sa3_same| |]; right; eauto.
Qed.

Lemma map_lo2 {A B} (k : A -> B) (q l : outcome A * world) :
  lo2 q l ->
  lo2 (let '(o, w) := q in (let! a := o in Ret (k a), w)) (let '(o, w) := l in (let! a := o in Ret (k a), w)).
Proof.
  intros [->|[[w ->]|(a & w' & p' & w'' & -> & -> & HM)]]; [apply lo2_same| |]; right.
  - left. eauto.
  - right. exists (k a), w', p', w''. auto.
Qed.
Lemma map_lo23 {A B C} (k : A -> B) (b : C) (q l : outcome A * world) :
  lo2 q l ->
  lo3 (let '(o, w) := q in (let! a := o in Ret (k a), b, w)) (let '(o, w) := l in (let! a := o in Ret (k a), b, w)).
Proof.
  intros [->|[[w ->]|(a & w' & p' & w'' & -> & -> & HM)]]; [apply lo3_same| |]; right.
  - left. eauto.
  - right. exists (k a), b, w', p', w''. auto.
Qed.
Lemma map_lo3 {A B C D} (k : A -> B) (f : C -> D) (q l : outcome A * C * world) :
  lo3 q l ->
  lo3 (let '(o, b, w) := q in (let! a := o in Ret (k a), f b, w))
      (let '(o, b, w) := l in (let! a := o in Ret (k a), f b, w)).
Proof.
  intros [->|[(b & w & ->)|(a & b & w' & p' & w'' & -> & -> & HM)]]; [apply lo3_same| |]; right.
  - left. eauto.
  - right. exists (k a), (f b), w', p', w''. auto.
Qed.
Lemma map_sa3 {A B C D} (k : A -> B) (f : C -> D) (q l : outcome A * C * world) :
  sa3 q l ->
  sa3 (let '(o, b, w) := q in (let! a := o in Ret (k a), f b, w))
      (let '(o, b, w) := l in (let! a := o in Ret (k a), f b, w)).
Proof. intros [->|(b & w & ->)]; [apply sa3_same|]. right. cbn [obind]. eauto. Qed.

Lemma map_sa3' {A C D} (f : C -> D) (q l : outcome A * C * world) :
  sa3 q l ->
  sa3 (let '(o, b, w) := q in (o, f b, w)) (let '(o, b, w) := l in (o, f b, w)).
Proof. intros [->|(b & w & ->)]; [apply sa3_same|]. right. eauto. Qed.

Lemma map_lo3' {A C D} (f : C -> D) (q l : outcome A * C * world) :
  lo3 q l ->
  lo3 (let '(o, b, w) := q in (o, f b, w)) (let '(o, b, w) := l in (o, f b, w)).
Proof.
  intros [->|[(b & w & ->)|(a & b & w' & p' & w'' & -> & -> & HM)]]; [apply lo3_same| |]; right.
  - left. eauto.
  - right. exists a, (f b), w', p', w''. auto.
Qed.

Section Loud.
Context {V : Type} `{HD : HasDrop V} `{HCl : HasClone V} `{HE : HasPartialEq V} `{HH : HasHash V}
        `{HF : HasDebug V} `{HT : VTable V} `{HS : Sized V} {HL : Lawful V}.
Context (P : profile) (G : tenv) (HG : wf_tenv G) (HC : clones_ok G).
Notation Q := (calm G).

Lemma HGq : wf_tenv Q. Proof using HG HC. apply (calm_ok G HG HC). Qed.
Lemma HCq : clones_ok Q. Proof using HG HC. apply (calm_ok G HG HC). Qed.
Lemma HQq : drops_quietly Q. Proof using. intros t h v. reflexivity. Qed.

(** ** Destructors *)

Lemma drop_val_l t v w :
  exists o, drop_val G t v w = (o, set_tr (w_trace w ++ drops G t [v]) w) /\
            (o = Ret tt \/ o = Panic PUser).
Proof.
  unfold drop_val, drops. destruct (t_copy (G t)).
  - eexists. rewrite app_nil_r, set_tr_same. eauto.
  - destruct (t_drop_panics (G t) (w_trace w) v); eexists; eauto.
Qed.

Lemma drop_vals_l t vs w :
  exists o, drop_vals G t vs w = (o, set_tr (w_trace w ++ drops G t vs) w) /\
            (o = Ret tt \/ o = Panic PUser \/ o = Abort).
Proof.
  revert w. induction vs as [|v vs IH]; intros w; cbn [drop_vals].
  - rewrite drops_nil, app_nil_r, set_tr_same. eauto.
  - destruct (drop_val_l t v w) as (o & -> & Ho).
    destruct (IH (set_tr (w_trace w ++ drops G t [v]) w)) as (o' & E & Ho').
    rewrite set_tr_trace, set_tr_set, <- app_assoc, <- drops_cons in E. rewrite E.
    destruct Ho as [->| ->]; eexists; (split; [reflexivity|]); [exact Ho'|].
    destruct Ho' as [->|[->| ->]]; cbn [unwind]; auto.
Qed.

Lemma drop_val_lo t v w : lo2 (drop_val Q t v w) (drop_val G t v w).
Proof.
  rewrite (drop_val_q Q HQq). destruct (drop_val_l t v w) as (o & -> & [->| ->]); [left; reflexivity|].
  right. right. do 4 eexists. csplit; [reflexivity|reflexivity|apply more_refl].
Qed.

Lemma vec_elems_calm t v : vec_elems Q t v = vec_elems G t v.
Proof. unfold vec_elems. apply calm_vals. Qed.

Lemma vec_drop_lo t v w : lo2 (vec_drop Q t v w) (vec_drop G t v w).
Proof.
  unfold vec_drop. rewrite vec_elems_calm. destruct (vec_elems G t v) as [vs| | |]; try apply lo2_same.
  rewrite (drop_vals_q Q HQq). destruct (drop_vals_l t vs w) as (o & -> & Ho).
  change (drops Q t vs) with (drops G t vs). set (w1 := set_tr _ w).
  change (v_drop_nodrop (t_size (Q t)) (t_align (Q t)) v w1) with (v_drop_nodrop (t_size (G t)) (t_align (G t)) v w1).
  destruct Ho as [->|[->| ->]]; [apply lo2_same| |right; left; eauto].
  destruct (v_drop_nodrop (t_size (G t)) (t_align (G t)) v w1) as [o w2] eqn:E.
  destruct o as [[]|p|u|]; cbn [unwind].
  - right. right. do 4 eexists. csplit; [reflexivity|reflexivity|apply more_refl].
  - right. left. eauto.
  - now left.
  - now left.
Qed.

Lemma owning_lo {A B} t x (q l : outcome A * B * world) :
  lo3 q l -> lo3 (owning Q t x q) (owning G t x l).
Proof.
  intros [->|[(b & w & ->)|(a & b & w' & p & w'' & -> & -> & HM)]].
  - destruct q as [[[a|p|u|] b] w]; cbn [owning]; try apply lo3_same.
    + apply (map_lo23 (fun _ => a) b). apply drop_val_lo.
    + apply sa3_lo. apply (unwind_lo3 p b). apply drop_val_lo.
  - right. left. cbn [owning]. eauto.
  - cbn [owning]. rewrite (drop_val_q Q HQq). destruct (drop_val_l t x w'') as (o & -> & [->| ->]).
    + right. right. cbn [obind unwind]. do 5 eexists. csplit; [reflexivity|reflexivity|].
      destruct HM as [Ht [lk HO]]. split; [cbn; now rewrite Ht|]. exists lk. intros k Hk.
      apply Owns_set_tr. apply HO. now apply Owns_set_tr in Hk.
    + right. left. cbn [unwind]. eauto.
Qed.

(** ** Functions that only drop while unwinding *)

Lemma from_vec_sa t vec w : sa2 (vd_from_vec (V := V) Q t vec w) (vd_from_vec G t vec w).
Proof.
  unfold vd_from_vec, vc_from_vec. change (t_size (Q t)) with (t_size (G t)).
  destruct (t_size (G t) =? 0); [|apply sa2_same].
  apply (unwind_lo PAssert). apply vec_drop_lo.
Qed.

Lemma apply_sa {A} t (f g : svec -> world -> outcome A * svec * world) d w :
  (forall v w, sa3 (f v w) (g v w)) ->
  sa3 (apply_unchecked P Q t f d w) (apply_unchecked P G t g d w).
Proof.
  intros H. unfold apply_unchecked.
  change (into_vec_unchecked P Q t d) with (into_vec_unchecked P G t d).
  destruct (into_vec_unchecked P G t d) as [v| | |]; try apply sa3_same.
  destruct (H v w) as [->|(b & w' & ->)]; [|right; cbn [retype]; eauto].
  destruct (f v w) as [[[a|p|u|] v'] w']; try apply sa3_same.
  apply (unwind_lo3 p vv_default). apply vec_drop_lo.
Qed.

Lemma clone_vals_calm t xs w : clone_vals Q t xs w = clone_vals G t xs w.
Proof. reflexivity. Qed.

Lemma slice_to_vec_sa t xs w : sa2 (slice_to_vec Q t xs w) (slice_to_vec G t xs w).
Proof.
  unfold slice_to_vec. change (t_size (Q t)) with (t_size (G t)). change (t_align (Q t)) with (t_align (G t)).
  destruct (v_with_capacity _ _ (lenN xs) w) as [[v|p|u|] w1]; try apply sa2_same.
  rewrite clone_vals_calm. destruct (clone_vals G t xs w1) as [[[o|p|u|] cs] w2];
    rewrite ?calm_encs; try apply sa2_same.
  apply (unwind_lo p). apply vec_drop_lo.
Qed.

Lemma bind_sa2 {A B} (q l : outcome A * world) (f g : A -> world -> outcome B * world) :
  sa2 q l -> (forall a w, sa2 (f a w) (g a w)) ->
  sa2 (match q with (Ret a, w) => f a w | (o, w) => (retype o, w) end)
      (match l with (Ret a, w) => g a w | (o, w) => (retype o, w) end).
Proof.
  intros [->|[w ->]] H; [|right; cbn [retype]; eauto].
  destruct q as [[a|p|u|] w]; try apply sa2_same. apply H.
Qed.

Lemma from_slice_sa t xs w : sa2 (vd_from_slice (V := V) Q t xs w) (vd_from_slice G t xs w).
Proof.
  unfold vd_from_slice. apply (bind_sa2 _ _ (vd_from_vec Q t) (vd_from_vec G t)).
  - apply slice_to_vec_sa.
  - intros a w'. apply from_vec_sa.
Qed.

Lemma with_capacity_sa t n w : sa2 (vd_with_capacity (V := V) Q t n w) (vd_with_capacity G t n w).
Proof.
  unfold vd_with_capacity, vc_with_capacity. change (t_size (Q t)) with (t_size (G t)).
  change (t_align (Q t)) with (t_align (G t)).
  apply (bind_sa2 _ _ (vd_from_vec Q t) (vd_from_vec G t)); [apply sa2_same|].
  intros a w'. apply from_vec_sa.
Qed.

Lemma vec_from_elem_sa t n v w :
  n <> 0 -> sa2 (vec_from_elem Q t n v w) (vec_from_elem G t n v w).
Proof.
  intros Hn. unfold vec_from_elem. change (t_size (Q t)) with (t_size (G t)).
  change (t_align (Q t)) with (t_align (G t)). apply N.eqb_neq in Hn. rewrite Hn.
  destruct (v_with_capacity _ _ n w) as [[b|p|u|] w1]; try apply sa2_same.
  - rewrite clone_vals_calm. destruct (clone_vals G t _ w1) as [[[o|p|u|] cs] w2];
      rewrite ?calm_encs; try apply sa2_same.
    rewrite (drop_val_q Q HQq). destruct (drop_val_l t v w2) as (o & -> & Ho).
    change (drops Q t [v]) with (drops G t [v]). set (w3 := set_tr _ w2).
    rewrite ?calm_encs.
    destruct Ho as [->| ->].
    + apply (unwind_lo p). apply vec_drop_lo.
    + right. destruct (vec_drop G t _ w3). eauto.
  - apply (unwind_lo p). apply drop_val_lo.
Qed.

Lemma with_size_sa t n v w :
  n <> 0 -> sa2 (vd_with_size (V := V) Q t n v w) (vd_with_size G t n v w).
Proof.
  intros Hn. unfold vd_with_size. apply (bind_sa2 _ _ (vd_from_vec Q t) (vd_from_vec G t)).
  - now apply vec_from_elem_sa.
  - intros a w'. apply from_vec_sa.
Qed.

Lemma clone_raw_sa p src dst w :
  sa2 (call_clone_into_raw Q p src dst w) (call_clone_into_raw G p src dst w).
Proof.
  unfold call_clone_into_raw. destruct p as [t]. change (from_bytes Q t src) with (from_bytes G t src).
  destruct (from_bytes G t src) as [v| | |]; try apply sa2_same.
  change (clone_val Q t v w) with (clone_val G t v w).
  destruct (clone_val G t v w) as [[c|q|u|] w1]; try apply sa2_same.
  change (enc Q t c) with (enc G t c).
  destruct (bytes_copy_from_slice dst (enc G t c)); try apply sa2_same.
  apply (unwind_lo p). apply drop_val_lo.
Qed.

Lemma clone_small_sa bs t al (tab : V) w :
  sa2 (clone_small_of Q bs t al tab w) (clone_small_of G bs t al tab w).
Proof.
  unfold clone_small_of.
  destruct (clone_raw_sa (clone_into_raw_fn tab) bs (repeat (Byte 0) (N.to_nat usize_bytes)) w) as [->|[w' ->]];
    [apply sa2_same|]. right. cbn [retype]. eauto.
Qed.

(** ** Pushing *)

Lemma obind_ret {A B} (o : outcome A) (k : A -> outcome B) b :
  obind o k = Ret b -> exists a, o = Ret a /\ k a = Ret b.
Proof. destruct o; cbn [obind]; try discriminate. eauto. Qed.

Lemma override_elem tk v e d : from_vec_override P tk v e = Ret d -> vv_elem d = e.
Proof.
  unfold from_vec_override. intros H. repeat (apply obind_ret in H as (? & _ & H)).
  injection H as <-. reflexivity.
Qed.

Lemma reserve_check t n self self' w w' :
  vc_reserve P n self w = (Ret tt, self', w') -> vc_check (V := V) t self' = vc_check t self.
Proof.
  unfold vc_reserve, on_data, vv_reserve, dispatch, apply_aligned_unchecked, drop0.
  destruct (eval_align _) as [tk|]; [|discriminate].
  destruct (aligned_vec_unchecked P tk (vc_data self)) as [v| | |]; try discriminate.
  match goal with |- context [lift0 ?f v tt w] => destruct (lift0 f v tt w) as [[[[[]|p|u|] v'] x'] w1] end;
    try discriminate.
  2:{ destruct (v_drop_nodrop tk tk v' w1) as [[| | |] w2]; discriminate. }
  destruct (from_vec_override P tk v' (vv_elem (vc_data self))) as [d| | |] eqn:E; try discriminate.
  intros [= <- <-]. apply override_elem in E. unfold vc_check, vc_element_type_id. cbn [vc_data].
  now rewrite E.
Qed.

Lemma push_as_lo t x self w : lo3 (vc_push_as (V := V) P Q t x self w) (vc_push_as P G t x self w).
Proof.
  unfold vc_push_as. destruct (vc_check t self).
  2:{ apply (map_lo23 (fun _ => false) self). apply drop_val_lo. }
  apply sa3_lo. apply (map_sa3 (fun _ => true) id). unfold on_data, id. 
  apply (map_sa3' (fun d => VecCopy d (vc_vtable self))). apply apply_sa. intros v w1.
  change (t_size (Q t)) with (t_size (G t)). change (t_align (Q t)) with (t_align (G t)).
  change (enc Q t x) with (enc G t x).
  destruct (v_push _ _ _ v w1) as [[[o|p|u|] v'] w2]; try apply sa3_same.
  apply (unwind_lo3 p v'). apply drop_val_lo.
Qed.

Lemma push_as_sa t x self w :
  vc_check t self = true ->
  sa3 (vc_push_as (V := V) P Q t x self w) (vc_push_as P G t x self w).
Proof.
  intros Hc. unfold vc_push_as. rewrite Hc. apply (map_sa3 (fun _ => true) id). unfold on_data, id.
  apply (map_sa3' (fun d => VecCopy d (vc_vtable self))). apply apply_sa. intros v w1.
  change (t_size (Q t)) with (t_size (G t)). change (t_align (Q t)) with (t_align (G t)).
  change (enc Q t x) with (enc G t x).
  destruct (v_push _ _ _ v w1) as [[[o|p|u|] v'] w2]; try apply sa3_same.
  apply (unwind_lo3 p v'). apply drop_val_lo.
Qed.

Lemma apply_type {A} G' t (f : svec -> world -> outcome A * svec * world) d w a d' w' :
  apply_unchecked P G' t f d w = (Ret a, d', w') -> e_type_id (vv_elem d') = t.
Proof.
  unfold apply_unchecked. destruct (into_vec_unchecked P G' t d) as [v| | |]; try discriminate.
  destruct (f v w) as [[[b|p|u|] v'] w1]; try discriminate.
  - unfold vv_from_vec. destruct (into_valid_vec _ _ v' w1) as [[[[]|p|u|] v2] w2]; try discriminate.
    now intros [= _ <- _].
  - destruct (vec_drop G' t v' w1) as [[| | |] w2]; discriminate.
Qed.

Lemma push_as_check t x self self' w w' r :
  vc_check t self = true -> vc_push_as (V := V) P Q t x self w = (Ret r, self', w') ->
  vc_check t self' = true.
Proof.
  intros Hc. unfold vc_push_as. rewrite Hc. unfold on_data.
  match goal with |- context [apply_unchecked ?a ?b ?c ?f ?d ?e] =>
    destruct (apply_unchecked a b c f d e) as [[[o|p|u|] d'] w1] eqn:E end; cbn [obind]; try discriminate.
  intros [= _ <- _]. apply apply_type in E. unfold vc_check, vc_element_type_id. cbn [vc_data].
  rewrite E. apply N.eqb_refl.
Qed.

Lemma push_clones_sa n t x self w :
  vc_check t self = true ->
  sa3 (vd_push_clones (V := V) P Q n t x self w) (vd_push_clones P G n t x self w).
Proof.
  revert self w. induction n as [|n IH]; intros self w Hc; cbn [vd_push_clones]; [apply sa3_same|].
  change (clone_val Q t x w) with (clone_val G t x w).
  destruct (clone_val G t x w) as [[c|p|u|] w1]; try apply sa3_same.
  pose proof (push_as_check t c self) as Hk.
  destruct (push_as_sa t c self w1 Hc) as [->|(b & w2 & ->)]; [|right; cbn [retype]; eauto].
  destruct (vc_push_as P Q t c self w1) as [[[r|p|u|] self'] w2] eqn:E; try apply sa3_same.
  apply IH. eapply Hk; eauto.
Qed.

(** ** Calls that return normally or unwind *)

Lemma set_as_lo t i x self w : lo3 (vd_set_as (V := V) Q t i x self w) (vd_set_as G t i x self w).
Proof.
  unfold vd_set_as.
  change (vc_get_as Q t i self) with (vc_get_as G t i self).
  destruct (vc_get_as G t i self) as [[old|]|p|u|]; try apply lo3_same.
  - apply (map_lo23 (fun _ => true)). apply drop_val_lo.
  - apply (map_lo23 (fun _ => false)). apply drop_val_lo.
  - apply sa3_lo. apply (unwind_lo3 p self). apply drop_val_lo.
Qed.

Lemma clone_from_lo p dst src w : lo3 (call_clone_from Q p dst src w) (call_clone_from G p dst src w).
Proof.
  unfold call_clone_from. destruct p as [t]. change (from_bytes Q t) with (from_bytes G t).
  destruct (from_bytes G t src) as [v| | |]; try apply lo3_same.
  destruct (from_bytes G t dst) as [old| | |]; try apply lo3_same.
  change (clone_val Q t v w) with (clone_val G t v w).
  destruct (clone_val G t v w) as [[c|q|u|] w1]; try apply lo3_same.
  unfold assign_val. rewrite (drop_val_q Q HQq). destruct (drop_val_l t old w1) as (o & -> & [->| ->]).
  - now left.
  - right. right. do 5 eexists. csplit; [reflexivity|reflexivity|apply more_refl].
Qed.

Lemma vm_clone_from_lo (m : vmut V) r w :
  lo3 (vm_clone_from_other Q m r w) (vm_clone_from_other G m r w).
Proof.
  unfold vm_clone_from_other. destruct (vm_type_id m =? vr_type_id r); [|apply lo3_same].
  apply (map_lo3 (fun _ => inl tt) (vm_with_bytes m)). apply clone_from_lo.
Qed.

Lemma vd_clone_from_lo i r self w :
  lo3 (vd_clone_from_other P Q i r self w) (vd_clone_from_other P G i r self w).
Proof.
  unfold vd_clone_from_other, vd_with_mut.
  destruct (vd_get_mut P i self) as [[off m]| | |]; try apply lo3_same.
  apply (map_lo3' (fun m' => VecCopy (vv_splice off (vm_bytes m') (vc_data self)) (vc_vtable self))).
  apply vm_clone_from_lo.
Qed.

Lemma as_slice_calm t (b : vecdyn V) : vc_as_slice_as Q t b = vc_as_slice_as G t b.
Proof. unfold vc_as_slice_as. now rewrite calm_vals. Qed.

Lemma append_cloned_calm t (self : vecdyn V) vec w :
  vd_append_cloned_to_vec Q t self vec w = vd_append_cloned_to_vec G t self vec w.
Proof. unfold vd_append_cloned_to_vec. rewrite as_slice_calm. reflexivity. Qed.

(** All calls but [clear], [fill], [clone_from_slice] and a shrinking [resize]. *)
Lemma dcall_lo c (b : vecdyn V) w :
  match c with
  | VClear | VFill _ _ | VCloneFromSlice _ _ => False
  | VResize t n _ => vc_check t b = true -> vd_len b <= n
  | _ => True
  end ->
  lo3 (run_dcall P Q c b w) (run_dcall P G c b w).
Proof.
  destruct c; intros Hc; try contradiction; cbn [run_dcall]; try apply lo3_same.
  - unfold vd_as_slice_as. rewrite as_slice_calm. apply lo3_same.
  - apply (map_lo3 ABool id). apply set_as_lo.
  - apply (map_lo3 ABool id). apply push_as_lo.
  - apply (map_lo3 ABool id). unfold vd_resize. apply owning_lo. destruct (vc_check t b) eqn:Ec; [|apply lo3_same].
    specialize (Hc eq_refl). apply N.leb_le in Hc. rewrite Hc. apply sa3_lo.
    destruct (vc_reserve P (n - vd_len b) b w) as [[[[]|p|u|] b1] w1] eqn:E; try apply sa3_same.
    apply (map_sa3 (fun _ => true) id). apply push_clones_sa. rewrite (reserve_check t _ _ _ _ _ E). exact Ec.
  - unfold vd_clone_into_vec, into_new_vec. rewrite append_cloned_calm.
    destruct (vd_append_cloned_to_vec G t b svec_nil w) as [[[[|]|p|u|] vec] w1]; try apply lo3_same.
    + rewrite vec_elems_calm. destruct (vec_elems G t vec) as [vs| | |]; try apply lo3_same.
      apply (map_lo23 (fun _ => AVals (Some vs)) b). apply vec_drop_lo.
    + destruct (vec_drop_lo t vec w1) as [->|[[w' ->]|(a & w2 & p & w3 & -> & -> & HM)]]; cbn [obind retype].
      * destruct (vec_drop Q t vec w1) as [[?|?|?|] w2]; apply lo3_same.
      * right. left. eauto.
      * right. right. do 5 eexists. csplit; [reflexivity|reflexivity|exact HM].
    + destruct (vec_drop_lo t vec w1) as [->|[[w' ->]|(a & w2 & q & w3 & -> & -> & HM)]]; cbn [unwind retype].
      * destruct (vec_drop Q t vec w1) as [[?|?|?|] w2]; apply lo3_same.
      * right. left. eauto.
      * right. left. eauto.
Qed.

(** ** Owned values *)

Lemma calm_Rep t d xs : Rep Q t d xs <-> Rep G t d xs.
Proof. split; intros [H1 H2 H3 H4 H5 H6 H7 H8]; constructor; assumption. Qed.
Lemma calm_VRep (v : value V) t x : VRep Q v t x <-> VRep G v t x.
Proof. split; intros [H1 H2 H3 H4 H5 H6 H7]; constructor; assumption. Qed.

Lemma vl_drop_lo (v : value V) t x w l :
  VRep G v t x -> Owns w (vl_own v ++ l) -> lo2 (vl_drop Q v w) (vl_drop G v w).
Proof using HG HC HL.
  intros HV HO.
  destruct (vl_drop_rep Q HGq HQq v t x w l (proj2 (calm_VRep v t x) HV) HO) as (w' & Eq & HO' & Ht).
  rewrite Eq. unfold vl_drop in *. rewrite (vp_table _ _ _ _ HV), law_drop, (vp_bytes _ _ _ _ HV) in *.
  cbn [call_drop] in *. change (from_bytes Q t (enc G t x)) with (from_bytes G t (enc G t x)) in Eq.
  rewrite (from_bytes_enc G t x (vp_val _ _ _ _ HV)) in *. rewrite (drop_val_q Q HQq) in Eq.
  destruct (drop_val_l t x w) as (o & -> & [->| ->]).
  - change (drops Q t [x]) with (drops G t [x]) in Eq. rewrite Eq. apply lo2_same.
  - right. right. do 4 eexists. csplit; [reflexivity|reflexivity|]. split.
    + rewrite Ht. reflexivity.
    + exists (vl_own v). intros k Hk. apply Owns_set_tr. eapply Owns_perm; [|exact HO].
      apply Permutation_app_head. destruct HO' as [_ H1]. destruct Hk as [_ H2]. now rewrite <- H1.
Qed.

Lemma vm_assign_lo (m : vmut V) t x v t' x' w l :
  mut_ok G m t x -> VRep G v t' x' -> Owns w (vl_own v ++ l) ->
  lo3 (vm_assign Q m v w) (vm_assign G m v w).
Proof using HG HC HL.
  intros Hm HV HO. unfold vm_assign.
  destruct (vm_swap_ok G m t x (vl_as_mut v) t' x' Hm (mut_value G _ _ _ HV)) as (m1 & m2 & -> & H1 & H2).
  fold (vl_with_bytes v (vm_bytes m2)). rewrite H2.
  assert (HX : lo2 (vl_drop Q (vl_with_bytes v (if t =? t' then enc G t' x else enc G t' x')) w)
                   (vl_drop G (vl_with_bytes v (if t =? t' then enc G t' x else enc G t' x')) w)).
  { destruct (t =? t') eqn:E.
    - apply N.eqb_eq in E as <-. apply (vl_drop_lo _ t x w l).
      + apply (vl_with_bytes_rep G v t x' x HV). apply Hm.
      + now rewrite (vl_with_bytes_own G v t x' x HV).
    - rewrite (vl_with_bytes_same G v t' x' HV). exact (vl_drop_lo v t' x' w l HV HO). }
  destruct HX as [->|[[w' ->]|(a & w1 & p & w2 & -> & -> & HM)]]; [apply lo3_same| |].
  - right. left. eauto.
  - right. right. do 5 eexists. csplit; [reflexivity|reflexivity|exact HM].
Qed.

Lemma vd_assign_lo t d xs i v t' x w l :
  Rep G t d xs -> VRep G v t' x -> Owns w (vv_own d ++ vl_own v ++ l) ->
  fits P (i + 1) (t_size (G t)) ->
  lo3 (vd_assign (V := V) P Q i v (VecCopy d (build_vtable t)) w)
      (vd_assign P G i v (VecCopy d (build_vtable t)) w).
Proof using HG HC HL.
  intros HR HV HO Hfit. apply Owns_swap in HO. pose proof (rep_sized _ _ _ _ HR) as Hz.
  unfold vd_assign, vd_with_mut. destruct (nthN xs i) as [old|] eqn:Ei.
  - rewrite (vd_get_mut_rep P G HG t d (build_vtable t) xs i old HR Ei). cbn [vc_data vc_vtable].
    apply (map_lo3' (fun m' => VecCopy (vv_splice _ (vm_bytes m') d) (build_vtable t))).
    apply (vm_assign_lo _ t old v t' x w _ (mut_elem G t old Hz) HV HO).
  - destruct (vd_get_out P G HG t d (build_vtable t) xs i HR Ei Hfit) as (p & _ & ->).
    apply sa3_lo. apply unwind_lo3. exact (vl_drop_lo v t' x w _ HV HO).
Qed.

Lemma vd_assign_pois_lo t0 n k i v t' x w l :
  t_size (G t0) <> 0 -> VRep G v t' x -> Owns w (vl_own v ++ l) ->
  lo3 (vd_assign (V := V) P Q i v (VecCopy (pois_vec n k) (build_vtable t0)) w)
      (vd_assign P G i v (VecCopy (pois_vec n k) (build_vtable t0)) w).
Proof using HG HC HL.
  intros Hz HV HO. pose proof (vl_drop_lo v t' x w l HV HO) as HX. unfold vd_assign, vd_with_mut.
  destruct (vd_get_mut_pois P i n k (build_vtable t0)) as [[p ->]| Hg].
  { apply sa3_lo. now apply unwind_lo3. }
  rewrite Hg. cbn [vc_data vc_vtable].
  apply (map_lo3' (fun m' => VecCopy (vv_splice 0 (vm_bytes m') (pois_vec n k)) (build_vtable t0))).
  unfold vm_assign, vm_swap. cbn [vm_type_id vm_bytes].
  change (vm_type_id (vl_as_mut v)) with (vl_type_id v).
  change (vm_bytes (vl_as_mut v)) with (vl_bytes v).
  rewrite (vp_type _ _ _ _ HV), (vp_bytes _ _ _ _ HV).
  assert (HX' : forall m1 : vmut V, lo3 (let '(o', w') := vl_drop Q v w in (o', m1, w'))
                              (let '(o', w') := vl_drop G v w in (o', m1, w'))).
  { intros m1. destruct HX as [->|[[w' ->]|(a & w1 & p & w2 & -> & -> & HM)]]; [apply lo3_same| |].
    - right. left. eauto.
    - right. right. do 5 eexists. csplit; [reflexivity|reflexivity|exact HM]. }
  destruct (unit_id =? t') eqn:Et.
  - apply N.eqb_eq in Et as <-. rewrite enc_nil by apply (wf_unit_size G HG). rewrite N.eqb_refl.
    cbn [vm_with_bytes vm_bytes].
    replace (Value (vl_store v) [] unit_id (vl_alignment v) (vl_tblk v) (vl_table v)) with v.
    2:{ destruct v. pose proof (vp_bytes _ _ _ _ HV) as E1. pose proof (vp_type _ _ _ _ HV) as E2.
        cbn in *. subst. rewrite enc_nil by apply (wf_unit_size G HG). reflexivity. }
    apply HX'.
  - cbn [vm_with_bytes vm_bytes]. change (vm_bytes (vl_as_mut v)) with (vl_bytes v).
    replace (Value (vl_store v) (vl_bytes v) t' (vl_alignment v) (vl_tblk v) (vl_table v)) with v.
    2:{ destruct v. pose proof (vp_type _ _ _ _ HV) as E2. cbn in *. subst. reflexivity. }
    apply HX'.
Qed.

Lemma vd_push_lo (v : value V) t' x (b : vecdyn V) w l :
  VRep G v t' x -> Owns w (vl_own v ++ l) -> lo3 (vd_push P Q v b w) (vd_push P G v b w).
Proof using HG HC HL.
  intros HV HO. unfold vd_push. destruct (vl_type_id v =? vd_element_type_id b); [apply lo3_same|].
  apply (map_lo23 (fun _ => false) b). exact (vl_drop_lo v t' x w l HV HO).
Qed.

(** ** Loops that a panic leaves in the middle *)

Lemma drop_chunks_l t xs w :
  t_size (G t) <> 0 ->
  drop_chunks G (DropOf t) (map (enc G t) xs) w = drop_chunks Q (DropOf t) (map (enc G t) xs) w \/
  exists ds rest, xs = ds ++ rest /\
    drop_chunks G (DropOf t) (map (enc G t) xs) w = (Panic PUser, set_tr (w_trace w ++ drops G t ds) w).
Proof.
  intros Hz. pose proof (drop_chunks_q Q HQq t xs w (Forall_sized Q t xs Hz)) as EQ.
  destruct (drop_seq G t (w_trace w) xs) as [ds ok] eqn:Es.
  pose proof (drop_chunks_seq G t xs w ds ok Hz Es) as EG.
  destruct (drop_seq_prefix G t _ xs ds ok Es) as (rest & -> & Hr). rewrite EG. destruct ok.
  - left. rewrite (Hr eq_refl), app_nil_r in *. symmetry. exact EQ.
  - right. eauto.
Qed.

Lemma fill_vals_l t def xs w :
  fill_vals G t def xs w = fill_vals Q t def xs w \/
  exists ys tr, fill_vals G t def xs w = (Panic PUser, ys, set_tr tr w) /\
    List.length ys = List.length xs /\ bal G (owned_vals G t xs) [] (w_trace w) (owned_vals G t ys) [] [] tr.
Proof.
  revert w. induction xs as [|x xs IH]; intros w; cbn [fill_vals]; [now left|].
  change (clone_val Q t def w) with (clone_val G t def w). rewrite clone_val_eq.
  destruct (t_clone (G t) (w_trace w) def) as [c|]; [|now left].
  unfold assign_val. rewrite (drop_val_q Q HQq), set_tr_trace, set_tr_set.
  destruct (drop_val_l t x (set_tr (w_trace w ++ [EvClone t def c]) w)) as (o & -> & Ho).
  rewrite set_tr_trace, set_tr_set. change (drops Q t [x]) with (drops G t [x]).
  destruct Ho as [->| ->].
  - destruct (IH (set_tr ((w_trace w ++ [EvClone t def c]) ++ drops G t [x]) w)) as [->|(ys & tr & -> & Hl & Hb)].
    + now left.
    + right. exists (c :: ys), tr. csplit; [reflexivity|cbn [List.length]; now rewrite Hl|].
      intros q. specialize (Hb q). rewrite set_tr_trace in Hb.
      rewrite (owned_vals_cons G t c ys), (owned_vals_cons G t x xs). revert Hb. cnts q. lia.
  - right. exists (c :: xs). eexists. csplit; [reflexivity|reflexivity|].
    intros q. rewrite (owned_vals_cons G t c xs), (owned_vals_cons G t x xs). cnts q. lia.
Qed.

Lemma clone_from_vals_l t dst src w :
  clone_from_vals G t dst src w = clone_from_vals Q t dst src w \/
  exists ys tr, clone_from_vals G t dst src w = (Panic PUser, ys, set_tr tr w) /\
    List.length ys = List.length dst /\ bal G (owned_vals G t dst) [] (w_trace w) (owned_vals G t ys) [] [] tr.
Proof.
  revert src w. induction dst as [|x dst IH]; intros [|y src] w; cbn [clone_from_vals]; try now left.
  change (clone_val Q t y w) with (clone_val G t y w). rewrite clone_val_eq.
  destruct (t_clone (G t) (w_trace w) y) as [c|]; [|now left].
  unfold assign_val. rewrite (drop_val_q Q HQq), set_tr_trace, set_tr_set.
  destruct (drop_val_l t x (set_tr (w_trace w ++ [EvClone t y c]) w)) as (o & -> & Ho).
  rewrite set_tr_trace, set_tr_set. change (drops Q t [x]) with (drops G t [x]).
  destruct Ho as [->| ->].
  - destruct (IH src (set_tr ((w_trace w ++ [EvClone t y c]) ++ drops G t [x]) w)) as [->|(ys & tr & -> & Hl & Hb)].
    + now left.
    + right. exists (c :: ys), tr. csplit; [reflexivity|cbn [List.length]; now rewrite Hl|].
      intros q. specialize (Hb q). rewrite set_tr_trace in Hb.
      rewrite (owned_vals_cons G t c ys), (owned_vals_cons G t x dst). revert Hb. cnts q. lia.
  - right. exists (c :: dst). eexists. csplit; [reflexivity|reflexivity|].
    intros q. rewrite (owned_vals_cons G t c dst), (owned_vals_cons G t x dst). cnts q. lia.
Qed.

Lemma clone_from_each_l t xs (r : vref V) t' y w :
  t_size (G t) <> 0 -> ref_ok G r (Some (t', y)) ->
  clone_from_each G (map (elem_mut G t) xs) r w = clone_from_each Q (map (elem_mut G t) xs) r w \/
  exists ys tr, clone_from_each G (map (elem_mut G t) xs) r w = (Panic PUser, map (enc G t) ys, set_tr tr w) /\
    List.length ys = List.length xs /\ bal G (owned_vals G t xs) [] (w_trace w) (owned_vals G t ys) [] [] tr.
Proof using HL.
  intros Hz Hr. inversion Hr as [t1 v1 Rb Rt Ra Rv Ry E|]; subst t1 v1.
  revert w. induction xs as [|x xs IH]; intros w; cbn [map clone_from_each]; [now left|].
  unfold vm_clone_from_other. cbn [elem_mut vm_type_id vm_bytes vm_vtable vt_as_ref]. rewrite Rt.
  destruct (t =? t') eqn:Et.
  2:{ destruct (IH w) as [->|(ys & tr & -> & Hl & Hb)]; [now left|].
      right. exists (x :: ys), tr. csplit; [reflexivity|cbn [List.length]; now rewrite Hl|].
      intros q. specialize (Hb q).
      rewrite (owned_vals_cons G t x ys), (owned_vals_cons G t x xs). revert Hb. cnts q. lia. }
  apply N.eqb_eq in Et as <-. rewrite Rb, law_clone_from. unfold call_clone_from.
  change (from_bytes Q t) with (from_bytes G t).
  rewrite !from_bytes_enc by first [exact Ry|now apply is_value_sized].
  change (clone_val Q t y w) with (clone_val G t y w). rewrite clone_val_eq.
  destruct (t_clone (G t) (w_trace w) y) as [c|]; [|now left].
  unfold assign_val. rewrite (drop_val_q Q HQq), set_tr_trace, set_tr_set.
  destruct (drop_val_l t x (set_tr (w_trace w ++ [EvClone t y c]) w)) as (o & -> & Ho).
  rewrite set_tr_trace, set_tr_set. change (drops Q t [x]) with (drops G t [x]).
  change (enc Q t c) with (enc G t c).
  destruct Ho as [->| ->]; cbn [obind retype vm_with_bytes vm_bytes].
  - destruct (IH (set_tr ((w_trace w ++ [EvClone t y c]) ++ drops G t [x]) w)) as [->|(ys & tr & -> & Hl & Hb)].
    + now left.
    + right. exists (c :: ys), tr. csplit; [reflexivity|cbn [List.length]; now rewrite Hl|].
      intros q. specialize (Hb q). rewrite set_tr_trace in Hb.
      rewrite (owned_vals_cons G t c ys), (owned_vals_cons G t x xs). revert Hb. cnts q. lia.
  - right. exists (c :: xs). eexists. csplit; [|reflexivity|].
    + cbn [map]. rewrite map_map. cbn [elem_mut vm_bytes]. reflexivity.
    + intros q. rewrite (owned_vals_cons G t c xs), (owned_vals_cons G t x xs). cnts q. lia.
Qed.

(** ** What a step must achieve *)

Inductive lstep_post (s : dstep) (st : dstate (V := V)) (leak : list block)
  : outcome dreport * dstate (V := V) -> Prop :=
| LS_abort st' : lstep_post s st leak (Abort, st')
| LS_invalid : lstep_post s st leak (Ret DInvalid, st)
| LS_ret a st' leak' lost :
    dinv G st' (leak' ++ leak) ->
    bal G (stored G st) (step_gives G s) (w_trace (d_world st))
          (stored G st') (step_takes G s (DObs a)) lost (w_trace (d_world st')) ->
    (loses s (DObs a) = false -> leak' = [] /\ lost = []) ->
    lstep_post s st leak (Ret (DObs a), st')
| LS_panic p st' leak' lost again :
    dinv G st' (leak' ++ leak) ->
    bal G (stored G st) (step_gives G s ++ again) (w_trace (d_world st))
          (stored G st') [] lost (w_trace (d_world st')) ->
    (leaves_dropped s = false -> again = []) ->
    lstep_post s st leak (Panic p, st').

Lemma calm_slot s : slot_ok (V := V) Q s -> slot_ok G s.
Proof.
  destruct s as [x|]; [|trivial]. intros [vs [x' a Hr]]. exists (lobj_vals G a). constructor.
  destruct Hr as [t d xs HR|v t y HV|t n k Hz]; constructor; try assumption.
  - now apply calm_Rep.
  - now apply calm_VRep.
Qed.
Lemma slot_calm s : slot_ok (V := V) G s -> slot_ok Q s.
Proof.
  destruct s as [x|]; [|trivial]. intros [vs [x' a Hr]]. exists (lobj_vals Q a). constructor.
  destruct Hr as [t d xs HR|v t y HV|t n k Hz]; constructor; try assumption.
  - now apply calm_Rep.
  - now apply calm_VRep.
Qed.
Lemma calm_dinv (st : dstate (V := V)) leak : dinv Q st leak <-> dinv G st leak.
Proof.
  split; intros [H1 H2]; (split; [|exact H2]); (eapply Forall_impl; [|exact H1]);
    [apply calm_slot|apply slot_calm].
Qed.

Lemma obj_vals_calm (x : obj (V := V)) : obj_vals Q x = obj_vals G x.
Proof.
  destruct x as [b|v]; [|reflexivity]. cbn [obj_vals]. unfold vd_as_slice_as. rewrite as_slice_calm. reflexivity.
Qed.
Lemma stored_calm (st : dstate (V := V)) : stored Q st = stored G st.
Proof.
  unfold stored. induction (d_objs st) as [|[x|] l IH]; cbn [flat_map]; [reflexivity| |exact IH].
  now rewrite IH, obj_vals_calm.
Qed.

(** As [dstep_post] without the list meaning. *)
Lemma post_weak s st leak r : dstep_post G s st leak r -> lstep_post s st leak r.
Proof.
  intros [Hl|a st' lk lost HI Hb Hn Hl|p st' lk lost HI Hb Hl].
  - apply LS_invalid.
  - now apply (LS_ret s st leak a st' lk lost).
  - apply (LS_panic s st leak p st' lk lost []); auto. now rewrite app_nil_r.
Qed.

(** A step at the level of states. *)
Definition lo_st (q l : outcome dreport * dstate (V := V)) : Prop :=
  l = q \/ (exists st', l = (Abort, st')) \/
  exists a st' p w'', q = (Ret a, st') /\ l = (Panic p, dworld st' w'') /\ more (d_world st') w''.

Lemma louder_post s st leak q l :
  dinv G st leak -> dstep_post Q s st leak q -> lo_st q l -> lstep_post s st leak l.
Proof.
  intros HI0 Hq HLo.
  assert (HP : q = l -> lstep_post s st leak l).
  { intros <-. destruct Hq as [Hl|a st' lk lost HI Hb Hn Hl|p st' lk lost HI Hb Hl].
    - apply LS_invalid.
    - apply (LS_ret s st leak a st' lk lost); [now apply calm_dinv| |exact Hn].
      intros x. specialize (Hb x). rewrite !stored_calm in Hb. exact Hb.
    - apply (LS_panic s st leak p st' lk lost []); [now apply calm_dinv| |reflexivity].
      intros x. specialize (Hb x). rewrite !stored_calm in Hb. rewrite app_nil_r. exact Hb. }
  destruct HLo as [->|[[st' ->]|(a & st' & p & w'' & -> & -> & Ht & lk & HO)]]; [now apply HP|apply LS_abort|].
  assert (HI2 : forall lk', dinv G st' lk' -> dinv G (dworld st' w'') (lk ++ lk')).
  { intros lk' HI. apply dinv_world; [exact HI|]. apply HO. apply HI. }
  inversion Hq as [Hl E|b st1 lk1 lost HI Hb Hn Hl E|]; subst.
  - apply (LS_panic s st' leak p _ lk (step_gives G s) []); auto.
    intros x. cbn [dworld d_world]. rewrite stored_world, Ht. cnts x. lia.
  - apply (LS_panic s st leak p _ (lk ++ lk1) (step_takes G s (DObs b) ++ lost) []).
    + rewrite <- app_assoc. apply HI2. now apply calm_dinv.
    + intros x. specialize (Hb x). rewrite !stored_calm in Hb. cbn [dworld d_world].
      rewrite stored_world, Ht, app_nil_r. revert Hb.
      change (step_gives Q s) with (step_gives G s).
      change (step_takes Q s (DObs b)) with (step_takes G s (DObs b)).
      change (cloned Q) with (cloned G). change (dropped Q) with (dropped G). cnts x. lia.
    + reflexivity.
Qed.

Lemma quiet_post s st leak :
  dinv G st leak -> dstep_typed G s -> dstep_in_range P s st ->
  dstep_post Q s st leak (run_dstep P Q s st).
Proof using HG HC HL.
  intros HI Hty Hin. apply (run_dstep_post P Q HGq HCq HQq); [now apply calm_dinv| |exact Hin].
  destruct s; exact Hty.
Qed.

Lemma lo_step s st leak :
  dinv G st leak -> dstep_typed G s -> dstep_in_range P s st ->
  lo_st (run_dstep P Q s st) (run_dstep P G s st) -> lstep_post s st leak (run_dstep P G s st).
Proof using HG HC HL.
  intros HI Hty Hin HLo. eapply louder_post; [exact HI| |exact HLo]. now apply quiet_post.
Qed.

Lemma new_obj_sa {A} (k : A -> obj (V := V)) q l st :
  sa2 q l -> lo_st (new_obj k q st) (new_obj k l st).
Proof.
  intros [->|[w ->]]; [now left|]. right. left. cbn [new_obj retype]. eauto.
Qed.

Lemma set_lo {A} (k : A -> dobs) (f : vecdyn V -> world -> dstate (V := V)) q l :
  (forall b w w', f b w' = dworld (f b w) w') -> (forall b w, d_world (f b w) = w) -> lo3 q l ->
  lo_st (let '(o, b', w') := q in (oreport (let! a := o in Ret (k a)), f b' w'))
        (let '(o, b', w') := l in (oreport (let! a := o in Ret (k a)), f b' w')).
Proof.
  intros Hf Hw [->|[(b & w & ->)|(a & b & w' & p & w'' & -> & -> & HM)]]; [now left| |]; right.
  - left. cbn [obind oreport]. eauto.
  - right. cbn [obind oreport]. exists (DObs (k a)), (f b w'), p, w''. csplit; [reflexivity| |].
    + f_equal. apply Hf.
    + now rewrite Hw.
Qed.

(** A vector, not moved, after a panic in the middle of a loop. *)
Lemma mid_step s st leak h t d xs ys p tr lost again :
  dinv G st leak -> dget st h = Some (OVec (VecCopy d (build_vtable t))) -> Rep G t d xs ->
  List.length ys = List.length xs ->
  bal G (owned_vals G t xs) (step_gives G s ++ again) (w_trace (d_world st)) (owned_vals G t ys) [] lost tr ->
  (leaves_dropped s = false -> again = []) ->
  lstep_post s st leak
    (Panic p, dset st h (Some (OVec (VecCopy (with_vals G t d ys) (build_vtable t)))) (set_tr tr (d_world st))).
Proof using HG.
  intros HI Hg HR Hlen Hb Ha.
  destruct (dinv_out G st leak h _ HI Hg) as (rb & rv & HO & Hc & Hback).
  rewrite (obj_ok_vals G HG _ _ (OK_rel G _ _ (OR_vec G t d xs HR))) in Hc. cbn [lobj_vals] in Hc.
  assert (HR' : Rep G t (with_vals G t d ys) ys) by (apply (with_vals_rep G t d xs ys HR); now apply lenN_eq).
  pose proof (OK_rel G _ _ (OR_vec G t _ ys HR')) as Hok.
  destruct (Hback (Some (OVec (VecCopy (with_vals G t d ys) (build_vtable t)))) (set_tr tr (d_world st)) [])
    as [HI' Hc'].
  { eexists. exact Hok. }
  { cbn [slot_blocks obj_blocks]. rewrite buf_block_own. cbn [vc_data]. rewrite with_vals_own.
    apply Owns_set_tr. exact HO. }
  cbn [slot_vals] in Hc'. rewrite (obj_ok_vals G HG _ _ Hok) in Hc'. cbn [lobj_vals] in Hc'.
  apply (LS_panic s st leak p _ [] lost again); [exact HI'| |exact Ha].
  intros q. specialize (Hb q). rewrite Hc, Hc'. cbn [dset d_world]. rewrite set_tr_trace. revert Hb. cnts q. lia.
Qed.

(** ** Calls that a panic may leave in the middle *)

(** A panic left the vector with the elements [ys]; [again]: values that were dropped and that it
    still has. *)
Definition midr {A} t d xs gives (may : bool) w (l : outcome A * vecdyn V * world) : Prop :=
  exists p ys tr again,
    l = (Panic p, VecCopy (with_vals G t d ys) (build_vtable t), set_tr tr w) /\
    List.length ys = List.length xs /\
    bal G (owned_vals G t xs) (gives ++ again) (w_trace w) (owned_vals G t ys) [] [] tr /\
    (may = false -> again = []).

Lemma midr_full {A} (k : A -> dobs) t d xs gives may w l :
  midr t d xs gives may w l -> midr t d xs gives may w (dfull k l).
Proof. intros (p & ys & tr & ag & -> & H). exists p, ys, tr, ag. split; [reflexivity|exact H]. Qed.

Lemma midr_owning {A} t d xs may w t' x (l : outcome A * vecdyn V * world) :
  midr t d xs [] may w l ->
  (exists b w', owning G t' x l = (Abort, b, w')) \/ midr t d xs (owned_vals G t' [x]) may w (owning G t' x l).
Proof.
  intros (p & ys & tr & ag & -> & Hl & Hb & Ha). cbn [owning].
  destruct (drop_val_l t' x (set_tr tr w)) as (o & -> & Ho). rewrite set_tr_trace, set_tr_set.
  destruct Ho as [->| ->]; cbn [unwind]; [right|left; eauto].
  exists p, ys, (tr ++ drops G t' [x]), ag. csplit; [reflexivity|exact Hl| |exact Ha].
  intros q. specialize (Hb q). revert Hb. cnts q. lia.
Qed.

Lemma midr_call {A} (k : A -> dobs) t d xs may w t' x (l : outcome A * vecdyn V * world) q :
  midr t d xs [] may w l ->
  lo3 q (dfull k (owning G t' x l)) \/ midr t d xs (owned_vals G t' [x]) may w (dfull k (owning G t' x l)).
Proof.
  intros HM. destruct (midr_owning t d xs may w t' x l HM) as [(b & w' & ->)|HM'].
  - left. right. left. cbn [dfull obind]. eauto.
  - right. now apply midr_full.
Qed.

Lemma full_lo {A} (k : A -> dobs) (q l : outcome A * vecdyn V * world) : lo3 q l -> lo3 (dfull k q) (dfull k l).
Proof. intros H. exact (map_lo3 k id q l H). Qed.

Lemma fill_vals_copy t def xs w : t_copy (G t) = true -> fill_vals G t def xs w = fill_vals Q t def xs w.
Proof.
  intros Hc. destruct (fill_vals_l t def xs w) as [E|_]; [exact E|].
  revert w. induction xs as [|x xs IH]; intros w; cbn [fill_vals]; [reflexivity|].
  change (clone_val Q t def w) with (clone_val G t def w).
  destruct (clone_val G t def w) as [[c|p|u|] w1]; try reflexivity.
  unfold assign_val, drop_val. change (t_copy (Q t)) with (t_copy (G t)). rewrite Hc, IH. reflexivity.
Qed.

Lemma fill_l t d xs t' v w :
  Rep G t d xs ->
  let b := VecCopy d (build_vtable t) in
  lo3 (run_dcall P Q (VFill t' v) b w) (run_dcall P G (VFill t' v) b w) \/
  midr t d xs (owned_vals G t' [v]) false w (run_dcall P G (VFill t' v) b w).
Proof.
  intros HR b. cbn [run_dcall]. unfold vd_fill. unfold b. rewrite as_slice_calm, (as_slice_as_rep G t d _ xs t' HR).
  unfold typed. destruct (t' =? t) eqn:Et; [|left; apply full_lo, owning_lo, lo3_same].
  apply N.eqb_eq in Et as ->.
  destruct (fill_vals_l t v xs w) as [->|(ys & tr & -> & Hl & Hb)].
  - left. apply full_lo, owning_lo. rewrite ?calm_encs. apply lo3_same.
  - cbn [obind vc_data vc_vtable]. rewrite (splice_all_with_vals G t d xs ys HR) by now apply lenN_eq.
    apply midr_call. exists PUser, ys, tr, []. csplit; [reflexivity|exact Hl|exact Hb|reflexivity].
Qed.

Lemma clone_from_slice_l t d xs t' vs w :
  Rep G t d xs ->
  let b := VecCopy d (build_vtable t) in
  lo3 (run_dcall P Q (VCloneFromSlice t' vs) b w) (run_dcall P G (VCloneFromSlice t' vs) b w) \/
  midr t d xs [] false w (run_dcall P G (VCloneFromSlice t' vs) b w).
Proof using HG HC.
  intros HR b. cbn [run_dcall]. unfold vd_with_mut_slice, vd_as_slice, b.
  destruct (vc_as_slice_rep P G HG t d (build_vtable t) xs HR) as (s & -> & Hs & Hsv & Hse).
  unfold dsm_clone_from_slice. rewrite (sl_as_slice_rep P G HG t s xs t' Hs).
  assert (HsQ : SRep Q t s xs) by (destruct Hs; constructor; assumption).
  rewrite (sl_as_slice_rep P Q HGq t s xs t' HsQ). unfold typed.
  destruct (t' =? t) eqn:Et; [|left; apply lo3_same]. apply N.eqb_eq in Et as ->.
  destruct (lenN xs =? lenN vs); [|left; apply lo3_same].
  destruct (clone_from_vals_l t xs vs w) as [->|(ys & tr & -> & Hl & Hb)].
  - left. rewrite ?calm_encs. apply lo3_same.
  - right. cbn [obind vc_data vc_vtable sl_data]. rewrite (splice_all_with_vals G t d xs ys HR) by now apply lenN_eq.
    apply midr_full. exists PUser, ys, tr, []. csplit; [reflexivity|exact Hl|exact Hb|reflexivity].
Qed.

Lemma clear_l t d xs w :
  Rep G t d xs ->
  let b := VecCopy d (build_vtable t) in
  lo3 (run_dcall P Q VClear b w) (run_dcall P G VClear b w) \/
  midr t d xs [] true w (run_dcall P G VClear b w).
Proof using HG HL.
  intros HR b. cbn [run_dcall]. unfold vd_clear, b. cbn [vc_data vc_vtable].
  rewrite (byte_chunks_mut_rep P G HG t d xs HR), law_drop.
  destruct (drop_chunks_l t xs w (rep_sized _ _ _ _ HR)) as [->|(ds & rest & -> & ->)].
  - left. apply lo3_same.
  - right. apply midr_full. exists PUser, (ds ++ rest), (w_trace w ++ drops G t ds), (owned_vals G t ds).
    rewrite (with_vals_id G t d _ HR). csplit; [reflexivity|reflexivity| |discriminate].
    intros q. cnts q. lia.
Qed.

Lemma resize_l t d xs t' n v w :
  Rep G t d xs ->
  let b := VecCopy d (build_vtable t) in
  lo3 (run_dcall P Q (VResize t' n v) b w) (run_dcall P G (VResize t' n v) b w) \/
  midr t d xs (owned_vals G t' [v]) true w (run_dcall P G (VResize t' n v) b w).
Proof using HG HL.
  intros HR b. destruct (t' =? t) eqn:Et.
  2:{ left. apply dcall_lo. unfold b. rewrite (vc_check_rep G t d xs _ t' HR), Et. discriminate. }
  apply N.eqb_eq in Et as ->.
  destruct (vd_len b <=? n) eqn:En; [left; apply dcall_lo; intros _; now apply N.leb_le|].
  cbn [run_dcall]. unfold vd_resize. rewrite En. unfold b. rewrite (vc_check_rep G t d xs _ t HR), N.eqb_refl.
  cbn [vc_data vc_vtable]. rewrite (byte_chunks_mut_rep P G HG t d xs HR), law_drop.
  unfold skipnN. rewrite skipn_map.
  destruct (drop_chunks_l t (skipn (N.to_nat n) xs) w (rep_sized _ _ _ _ HR)) as [->|(ds & rest & Er & ->)].
  - left. apply full_lo, owning_lo, lo3_same.
  - cbn [retype].
    apply midr_call. exists PUser, xs, (w_trace w ++ drops G t ds), (owned_vals G t ds).
      rewrite (with_vals_id G t d _ HR). csplit; [reflexivity|reflexivity| |discriminate].
    intros q. cnts q. lia.
Qed.

Lemma dcall_pois_lo c t n k w :
  lo3 (run_dcall P Q c (VecCopy (pois_vec n k) (build_vtable t)) w)
      (run_dcall P G c (VecCopy (pois_vec n k) (build_vtable t)) w).
Proof using HG HC HL.
  set (b := VecCopy (pois_vec n k) (build_vtable t)).
  assert (Hcm : exists p, vv_byte_chunks_mut P (vc_data b) = Panic p) by apply chunks_mut_pois.
  destruct Hcm as [p Hcm].
  destruct c; try (apply dcall_lo; exact I).
  - destruct (vd_len b <=? n0) eqn:En; [apply dcall_lo; intros _; now apply N.leb_le|].
    cbn [run_dcall]. apply full_lo. unfold vd_resize. apply owning_lo. rewrite En, Hcm. apply lo3_same.
  - cbn [run_dcall]. apply full_lo. unfold vd_fill. apply owning_lo. rewrite as_slice_calm.
    destruct (vc_as_slice_as G t0 b) as [[xs|]|p0|u|] eqn:E; try apply lo3_same.
    assert (t0 = unit_id) as ->.
    { unfold vc_as_slice_as in E. destruct (vc_check t0 b) eqn:Ec; [|discriminate]. now apply N.eqb_eq in Ec. }
    rewrite (fill_vals_copy unit_id v xs w (wf_unit_copy G HG)).
    destruct (fill_vals Q unit_id v xs w) as [[o ys] w']. rewrite ?calm_encs. apply lo3_same.
  - cbn [run_dcall]. apply full_lo. unfold vd_clear. rewrite Hcm. apply lo3_same.
  - cbn [run_dcall]. apply full_lo. unfold vd_with_mut_slice, vd_as_slice, b. rewrite vc_as_slice_pois.
    unfold dsm_clone_from_slice, sl_as_slice. rewrite sl_len_pois. cbn [obind].
    destruct (sl_check t0 (pois_slice (build_vtable t))); apply lo3_same.
Qed.

Lemma iter_mut_clone_l t d xs (r : vref V) rv w :
  Rep G t d xs -> ref_ok G r rv ->
  let b := VecCopy d (build_vtable t) in
  lo3 (vd_iter_mut_clone P Q r b w) (vd_iter_mut_clone P G r b w) \/
  midr t d xs [] false w (vd_iter_mut_clone P G r b w).
Proof using HG HL.
  intros HR Hr b. pose proof (rep_sized _ _ _ _ HR) as Hz. unfold vd_iter_mut_clone, b.
  cbn [vc_data vc_vtable]. rewrite (byte_chunks_mut_rep P G HG t d xs HR), map_map.
  unfold vc_element_type_id. cbn [vc_data]. rewrite (rep_elem _ _ _ _ HR). cbn [elem_new e_type_id e_alignment].
  change (fun x : payload => ValMut (enc G t x) t (t_align (G t)) (VRef (build_vtable t))) with (elem_mut (V := V) G t).
  destruct rv as [[t' y]|].
  - destruct (clone_from_each_l t xs r t' y w Hz Hr) as [->|(ys & tr & -> & Hl & Hb)].
    + left. apply lo3_same.
    + right. rewrite (set_chunks_with_vals G t d xs ys HR) by now apply lenN_eq.
      exists PUser, ys, tr, []. csplit; [reflexivity|exact Hl|exact Hb|reflexivity].
  - left. rewrite (clone_from_each_pois G t xs r w (rep_not_unit G HG _ _ _ HR) Hr).
    assert (HrQ : ref_ok Q r None) by (inversion Hr; subst; econstructor; eassumption).
    pose proof (clone_from_each_pois Q t xs r w (rep_not_unit G HG _ _ _ HR) HrQ) as EQ.
    change (elem_mut (V := V) Q t) with (elem_mut (V := V) G t) in EQ. rewrite EQ. apply lo3_same.
Qed.

Lemma iter_mut_clone_pois_lo t n k (r : vref V) w :
  lo3 (vd_iter_mut_clone P Q r (VecCopy (pois_vec n k) (build_vtable t)) w)
      (vd_iter_mut_clone P G r (VecCopy (pois_vec n k) (build_vtable t)) w).
Proof.
  unfold vd_iter_mut_clone. cbn [vc_data]. destruct (chunks_mut_pois P n k) as [p ->]. apply lo3_same.
Qed.

(** ** Every step *)

Lemma lo_st_same q : lo_st q q.
Proof. now left. Qed.

Lemma get_source_calm st src : get_source (V := V) P Q st src = get_source P G st src.
Proof. reflexivity. Qed.

Lemma dset_world st h x w w' : dset (V := V) st h x w' = dworld (dset st h x w) w'.
Proof. reflexivity. Qed.

Lemma source_cases st leak src :
  dinv G st leak -> source_typed G src -> source_in_range P st src ->
  get_source P G st src = inl tt \/ (exists p, get_source P G st src = inr (Panic p)) \/
  exists r rv, get_source P G st src = inr (Ret r) /\ ref_ok G r rv.
Proof using HG.
  intros HI Hty Hin.
  destruct (get_source_ok P G HG st leak src HI Hty Hin) as [Hl|p Hl|p h0 Hin0 Hlost|r t v Hr Hl|r h0 Hr Hin0 Hlost];
    eauto 8.
Qed.

Lemma call_post_l h c st leak b :
  dinv G st leak -> dcall_typed G c -> dget st h = Some (OVec b) -> dcall_in_range P c b ->
  lo3 (run_dcall P Q c b (d_world st)) (run_dcall P G c b (d_world st)) ->
  lstep_post (DCall h c) st leak (run_dstep P G (DCall h c) st).
Proof using HG HC HL.
  intros HI Hty Hg Hin HLo. apply lo_step; [exact HI|exact Hty|cbn [dstep_in_range]; now rewrite Hg|].
  cbn [run_dstep]. rewrite Hg.
  assert (Hsh : forall r : outcome dobs * vecdyn V * world,
    (let '(o, b', w') := r in (oreport o, dset st h (Some (OVec b')) w')) =
    (let '(o, b', w') := r in (oreport (let! a := o in Ret (id a)), dset st h (Some (OVec b')) w'))).
  { intros [[[a|p|u|] b1] w1]; reflexivity. }
  rewrite !Hsh. apply (set_lo id (fun b' w' => dset st h (Some (OVec b')) w')); [reflexivity|reflexivity|exact HLo].
Qed.

Lemma mid_set {A} (k : A -> dobs) s st leak h t d xs may r :
  dinv G st leak -> dget st h = Some (OVec (VecCopy d (build_vtable t))) -> Rep G t d xs ->
  midr t d xs (step_gives G s) may (d_world st) r -> (leaves_dropped s = false -> may = false) ->
  lstep_post s st leak
    (let '(o, b', w') := r in (oreport (let! a := o in Ret (k a)), dset st h (Some (OVec b')) w')).
Proof using HG.
  intros HI Hg HR (p & ys & tr & ag & -> & Hl & Hb & Ha) Hm. cbn [obind oreport].
  apply (mid_step s st leak h t d xs ys p tr [] ag HI Hg HR Hl Hb). auto.
Qed.

Lemma call_l h c st leak :
  dinv G st leak -> dcall_typed G c ->
  (match dget st h with Some (OVec b) => dcall_in_range P c b | _ => True end) ->
  lstep_post (DCall h c) st leak (run_dstep P G (DCall h c) st).
Proof using HG HC HL.
  intros HI Hty Hin. destruct (dget st h) as [[b|v]|] eqn:Hg.
  2,3: cbn [run_dstep]; rewrite Hg; apply LS_invalid.
  destruct (vec_cases G st leak h b HI Hg) as [(t & d & xs & -> & HR)|(t & n & k & -> & Hz)].
  2:{ eapply call_post_l; eauto. apply dcall_pois_lo. }
  assert (HX : lo3 (run_dcall P Q c (VecCopy d (build_vtable t)) (d_world st))
                   (run_dcall P G c (VecCopy d (build_vtable t)) (d_world st)) \/
               midr t d xs (step_gives G (DCall h c)) (leaves_dropped (DCall h c)) (d_world st)
                    (run_dcall P G c (VecCopy d (build_vtable t)) (d_world st))).
  { destruct c; try (left; apply dcall_lo; exact I).
    - exact (resize_l t d xs t0 n v (d_world st) HR).
    - exact (fill_l t d xs t0 v (d_world st) HR).
    - exact (clear_l t d xs (d_world st) HR).
    - exact (clone_from_slice_l t d xs t0 vs (d_world st) HR). }
  destruct HX as [HX|HX]; [eapply call_post_l; eauto|].
  cbn [run_dstep]. rewrite Hg.
  pose proof (mid_set id (DCall h c) st leak h t d xs _ _ HI Hg HR HX (fun e => e)) as HM.
  destruct (run_dcall P G c (VecCopy d (build_vtable t)) (d_world st)) as [[[a|p|u|] b1] w1]; exact HM.
Qed.

Lemma with_size_l t n v st leak :
  dinv G st leak -> is_value G t v ->
  lstep_post (DWithSize t n v) st leak (run_dstep P G (DWithSize t n v) st).
Proof using HG HC HL.
  intros HI Hv. destruct (N.eq_dec n 0) as [->|Hn].
  2:{ apply lo_step; [exact HI|exact Hv|exact I|]. cbn [run_dstep]. apply new_obj_sa. now apply with_size_sa. }
  destruct (drop_val_l t v (d_world st)) as (o & Ed & Ho).
  assert (Ec : v_with_capacity (t_size (G t)) (t_align (G t)) 0 (d_world st) = (Ret svec_nil, d_world st)).
  { unfold v_with_capacity. destruct (t_size (G t) =? 0); [reflexivity|].
    rewrite N.mul_0_l. replace (0 <=? max_alloc (t_align (G t))) with true by (symmetry; apply N.leb_le, N.le_0_l).
    reflexivity. }
  destruct Ho as [->| ->].
  - apply lo_step; [exact HI|exact Hv|exact I|]. cbn [run_dstep]. apply new_obj_sa.
    unfold vd_with_size. apply (bind_sa2 _ _ (vd_from_vec Q t) (vd_from_vec G t)).
    + unfold vec_from_elem. change (t_size (Q t)) with (t_size (G t)).
      change (t_align (Q t)) with (t_align (G t)). rewrite Ec. cbn [N.eqb].
      rewrite Ed, (drop_val_q Q HQq). apply sa2_same.
    + intros a w'. apply from_vec_sa.
  - cbn [run_dstep]. unfold vd_with_size, vec_from_elem. rewrite Ec. cbn [N.eqb]. rewrite Ed.
    rewrite vec_drop_nil. cbn [unwind retype new_obj].
    apply (LS_panic _ st leak PUser _ [] [] []); [|
      |reflexivity].
    + apply (dinv_world G st leak []); [exact HI|]. apply Owns_set_tr. apply HI.
    + intros q. cbn [dworld d_world step_gives]. rewrite stored_world, set_tr_trace. cnts q. lia.
Qed.

Lemma drop_l h st leak :
  dinv G st leak -> lstep_post (DDrop h) st leak (run_dstep P G (DDrop h) st).
Proof using HG HC HL.
  intros HI. destruct (dget st h) as [[b|v]|] eqn:Hg.
  2,3: cbn [run_dstep]; rewrite Hg; apply LS_invalid.
  destruct (vec_cases G st leak h b HI Hg) as [(t & d & xs & -> & HR)|(t & n & k & -> & Hz)].
  2:{ apply lo_step; [exact HI|exact I|exact I|]. cbn [run_dstep]. rewrite Hg.
      unfold vd_drop. cbn [vc_data]. destruct (chunks_mut_pois P n k) as [p ->]. apply lo_st_same. }
  destruct (drop_chunks_l t xs (d_world st) (rep_sized _ _ _ _ HR)) as [E|(ds & rest & Ex & E)].
  - apply lo_step; [exact HI|exact I|exact I|]. cbn [run_dstep]. rewrite Hg.
    unfold vd_drop. cbn [vc_data vc_vtable]. rewrite (byte_chunks_mut_rep P G HG t d xs HR), law_drop, E.
    apply lo_st_same.
  - cbn [run_dstep]. rewrite Hg. unfold vd_drop. cbn [vc_data vc_vtable].
    rewrite (byte_chunks_mut_rep P G HG t d xs HR), law_drop, E. cbn [obind oreport].
    destruct (dinv_out G st leak h _ HI Hg) as (rb & rv & HO & Hc & Hback).
    rewrite (obj_ok_vals G HG _ _ (OK_rel G _ _ (OR_vec G t d xs HR))) in Hc. cbn [lobj_vals] in Hc.
    edestruct (Hback None (set_tr (w_trace (d_world st) ++ drops G t ds) (d_world st)) (vv_own d)) as [HI' Hc'];
      [exact I| |].
    { cbn [slot_blocks app]. apply Owns_set_tr. exact HO. }
    cbn [slot_vals] in Hc'.
    apply (LS_panic _ st leak PUser _ (vv_own d) (owned_vals G t rest) []); [exact HI'| |reflexivity].
    intros q. rewrite Hc, Hc'. cbn [dset d_world step_gives]. rewrite set_tr_trace, Ex. cnts q. lia.
Qed.

Lemma clone_from_all_l h src st leak :
  dinv G st leak -> source_typed G src -> source_in_range P st src ->
  lstep_post (DCloneFromAll h src) st leak (run_dstep P G (DCloneFromAll h src) st).
Proof using HG HC HL.
  intros HI Hty Hin.
  destruct (uses h src) eqn:Hu; [cbn [run_dstep]; rewrite Hu; apply LS_invalid|].
  destruct (dget st h) as [[b|v]|] eqn:Hg.
  2,3: cbn [run_dstep]; rewrite Hu, Hg; apply LS_invalid.
  assert (HX : forall r rv, get_source P G st src = inr (Ret r) -> ref_ok G r rv ->
             lstep_post (DCloneFromAll h src) st leak (run_dstep P G (DCloneFromAll h src) st)).
  { intros r rv Es Hr.
    assert (HL3 : lo3 (vd_iter_mut_clone P Q r b (d_world st)) (vd_iter_mut_clone P G r b (d_world st)) ->
              lstep_post (DCloneFromAll h src) st leak (run_dstep P G (DCloneFromAll h src) st)).
    { intros HLo. apply lo_step; [exact HI|exact Hty|exact Hin|]. cbn [run_dstep].
      rewrite Hu, Hg, get_source_calm, Es.
      apply (set_lo dunit (fun b' w' => dset st h (Some (OVec b')) w')); [reflexivity|reflexivity|exact HLo]. }
    destruct (vec_cases G st leak h b HI Hg) as [(t & d & xs & -> & HR)|(t & n & k & -> & Hz)].
    - destruct (iter_mut_clone_l t d xs r rv (d_world st) HR Hr) as [HLo|HM]; [now apply HL3|].
      cbn [run_dstep]. rewrite Hu, Hg, Es.
      apply (mid_set dunit (DCloneFromAll h src) st leak h t d xs false _ HI Hg HR HM). reflexivity.
    - apply HL3. apply iter_mut_clone_pois_lo. }
  destruct (source_cases st leak src HI Hty Hin) as [Es|[[p Es]|(r & rv & Es & Hr)]]; [| |now apply (HX r rv)];
    (apply lo_step; [exact HI|exact Hty|exact Hin|]; cbn [run_dstep]; rewrite Hu, Hg, get_source_calm, Es; apply lo_st_same).
Qed.

Lemma push_l h k st leak :
  dinv G st leak -> dstep_in_range P (DPush h k) st ->
  lstep_post (DPush h k) st leak (run_dstep P G (DPush h k) st).
Proof using HG HC HL.
  intros HI Hin. apply lo_step; [exact HI|exact I|exact Hin|]. cbn [run_dstep].
  destruct (dget st h) as [[b|v]|] eqn:Hg; try apply lo_st_same.
  destruct (dget st k) as [[b'|v]|] eqn:Hg'; try apply lo_st_same.
  destruct (vl_store v) eqn:Ev; try apply lo_st_same.
  destruct (val_cases G st leak k v HI Hg') as (t & x & HV).
  destruct (dinv_out G st leak k _ HI Hg') as (rb & rv & HO & Hc & Hback). rewrite obj_blocks_own in HO.
  apply (set_lo ABool (fun b' w' => dset (dset st h (Some (OVec b')) w') k None w')); [reflexivity|reflexivity|].
  exact (vd_push_lo v t x b (d_world st) _ HV HO).
Qed.

Lemma assign_l h i k st leak :
  dinv G st leak -> index_in_range P st h i ->
  lstep_post (DAssign h i k) st leak (run_dstep P G (DAssign h i k) st).
Proof using HG HC HL.
  intros HI Hin. apply lo_step; [exact HI|exact I|exact Hin|]. cbn [run_dstep].
  unfold index_in_range in Hin.
  destruct (dget st h) as [[b|v]|] eqn:Hg; try apply lo_st_same.
  destruct (dget st k) as [[b'|v]|] eqn:Hg'; try apply lo_st_same.
  destruct (val_cases G st leak k v HI Hg') as (t' & x & HV).
  assert (Hne : h <> k) by (intros ->; congruence).
  destruct (dinv_out2 G st leak h k _ _ HI Hg Hg' Hne) as (rb & rv & HO & _ & _). rewrite (obj_blocks_own v) in HO.
  apply (set_lo (fun _ => AUnit) (fun b' w' => dset (dset st h (Some (OVec b')) w') k None w'));
    [reflexivity|reflexivity|].
  destruct (vec_cases G st leak h b HI Hg) as [(t & d & xs & -> & HR)|(t & n & c & -> & Hz)].
  - apply (vd_assign_lo t d xs i v t' x (d_world st) _ HR HV HO).
    change (fits P (i + 1) (vd_element_size (VecCopy d (build_vtable t)))) in Hin.
    assert (Hsz : vd_element_size (VecCopy d (build_vtable t)) = t_size (G t))
      by apply (vc_size_rep G HG t d _ xs HR).
    now rewrite Hsz in Hin.
  - exact (vd_assign_pois_lo t n c i v t' x (d_world st) _ Hz HV HO).
Qed.

Lemma clone_from_l h i src st leak :
  dinv G st leak -> source_typed G src -> dstep_in_range P (DCloneFrom h i src) st ->
  lstep_post (DCloneFrom h i src) st leak (run_dstep P G (DCloneFrom h i src) st).
Proof using HG HC HL.
  intros HI Hty Hin. apply lo_step; [exact HI|exact Hty|exact Hin|]. cbn [run_dstep].
  destruct (uses h src); [apply lo_st_same|].
  destruct (dget st h) as [[b|v]|] eqn:Hg; try apply lo_st_same.
  rewrite get_source_calm. destruct (get_source P G st src) as [[]|[r|p|u|]]; try apply lo_st_same.
  apply (set_lo (fun a => ABool (match a with inl _ => true | inr _ => false end))
           (fun b' w' => dset st h (Some (OVec b')) w')); [reflexivity|reflexivity|].
  apply vd_clone_from_lo.
Qed.

Lemma assign_val_l k k' st leak :
  dinv G st leak -> lstep_post (OAssign k k') st leak (run_dstep P G (OAssign k k') st).
Proof using HG HC HL.
  intros HI. apply lo_step; [exact HI|exact I|exact I|]. cbn [run_dstep].
  destruct (dget st k) as [[b|v]|] eqn:Hg; try apply lo_st_same.
  destruct (dget st k') as [[b'|v']|] eqn:Hg'; try apply lo_st_same.
  destruct (Nat.eqb_spec k k') as [Ek|Hne]; [apply lo_st_same|].
  destruct (val_cases G st leak k v HI Hg) as (t & x & HV).
  destruct (val_cases G st leak k' v' HI Hg') as (t' & x' & HV').
  destruct (dinv_out2 G st leak k k' _ _ HI Hg Hg' Hne) as (rb & rv & HO & _ & _).
  rewrite (obj_blocks_own v), (obj_blocks_own v') in HO. apply Owns_swap in HO.
  pose proof (vm_assign_lo (vl_as_mut v) t x v' t' x' (d_world st) _ (mut_value G _ _ _ HV) HV' HO) as HX.
  destruct HX as [->|[(m & w' & ->)|(a & m & w1 & p & w2 & -> & -> & HM)]]; [apply lo_st_same| |]; right.
  - left. cbn [obind oreport]. eauto.
  - right. cbn [obind oreport]. do 4 eexists. csplit; [reflexivity|reflexivity|exact HM].
Qed.

Lemma clone_from_val_l k src st leak :
  dinv G st leak -> source_typed G src -> source_in_range P st src ->
  lstep_post (OCloneFrom k src) st leak (run_dstep P G (OCloneFrom k src) st).
Proof using HG HC HL.
  intros HI Hty Hin. apply lo_step; [exact HI|exact Hty|exact Hin|]. cbn [run_dstep].
  destruct (uses k src); [apply lo_st_same|].
  destruct (dget st k) as [[b|v]|] eqn:Hg; try apply lo_st_same.
  rewrite get_source_calm. destruct (get_source P G st src) as [[]|[r|p|u|]]; try apply lo_st_same.
  destruct (vm_clone_from_lo (vl_as_mut v) r (d_world st)) as [->|[(m & w' & ->)|(a & m & w1 & p & w2 & -> & -> & HM)]];
    [apply lo_st_same| |]; right.
  - left. cbn [obind oreport]. eauto.
  - right. cbn [obind oreport]. do 4 eexists. csplit; [reflexivity|reflexivity|exact HM].
Qed.

Lemma drop_value_l k st leak :
  dinv G st leak -> lstep_post (ODrop k) st leak (run_dstep P G (ODrop k) st).
Proof using HG HC HL.
  intros HI. apply lo_step; [exact HI|exact I|exact I|]. cbn [run_dstep].
  destruct (dget st k) as [[b|v]|] eqn:Hg; try apply lo_st_same.
  destruct (val_cases G st leak k v HI Hg) as (t & x & HV).
  destruct (dinv_out G st leak k _ HI Hg) as (rb & rv & HO & Hc & Hback). rewrite obj_blocks_own in HO.
  destruct (vl_drop_lo v t x (d_world st) _ HV HO) as [->|[[w' ->]|(a & w1 & p & w2 & -> & -> & HM)]];
    [apply lo_st_same| |]; right.
  - left. cbn [obind oreport]. eauto.
  - right. cbn [obind oreport]. do 4 eexists. csplit; [reflexivity|reflexivity|exact HM].
Qed.

Theorem run_dstep_l s st leak :
  dinv G st leak -> dstep_typed G s -> dstep_in_range P s st -> lstep_post s st leak (run_dstep P G s st).
Proof using HG HC HL.
  intros HI Hty Hin.
  destruct s; cbn [dstep_typed dstep_in_range] in Hty, Hin.
  - apply lo_step; [exact HI|exact Hty|exact Hin|]. cbn [run_dstep]. apply new_obj_sa.
    apply (bind_sa2 _ _ (vd_from_vec Q t) (vd_from_vec G t)); [apply sa2_same|]. intros a w'. apply from_vec_sa.
  - apply lo_step; [exact HI|exact Hty|exact Hin|]. cbn [run_dstep]. apply new_obj_sa. apply from_vec_sa.
  - apply lo_step; [exact HI|exact Hty|exact Hin|]. cbn [run_dstep]. apply new_obj_sa. apply with_capacity_sa.
  - now apply with_size_l.
  - apply lo_step; [exact HI|exact Hty|exact Hin|]. cbn [run_dstep]. apply new_obj_sa. apply from_slice_sa.
  - apply post_weak. now apply step_with_type_from.
  - apply post_weak. now apply step_with_type_from_ref.
  - apply post_weak. now apply step_clone.
  - now apply drop_l.
  - apply post_weak. now apply step_into_vec.
  - apply post_weak. now apply step_append.
  - apply post_weak. now apply step_swap_elems.
  - apply post_weak. now apply step_eq.
  - now apply push_l.
  - apply post_weak. now apply step_push_cloned.
  - now apply assign_l.
  - now apply clone_from_l.
  - now apply clone_from_all_l.
  - now apply call_l.
  - apply post_weak. now apply step_box.
  - apply post_weak. now apply step_small.
  - apply lo_step; [exact HI|exact Hty|exact Hin|]. cbn [run_dstep]. rewrite get_source_calm.
    match goal with |- context [get_source P G st ?x] => destruct (get_source P G st x) as [[]|[r|p|u|]] end; apply lo_st_same.
  - apply lo_step; [exact HI|exact Hty|exact Hin|]. cbn [run_dstep]. rewrite get_source_calm.
    match goal with |- context [get_source P G st ?x] => destruct (get_source P G st x) as [[]|[r|p|u|]] end; try apply lo_st_same. apply new_obj_sa. apply clone_small_sa.
  - apply lo_step; [exact HI|exact Hty|exact Hin|]. cbn [run_dstep].
    destruct (dget st k) as [[b|v]|]; try apply lo_st_same. apply new_obj_sa. unfold vl_clone.
    destruct (vl_store v); [apply sa2_same|apply clone_small_sa].
  - now apply drop_value_l.
  - apply post_weak. now apply step_downcast.
  - apply post_weak. now apply step_swap_vals.
  - now apply assign_val_l.
  - now apply clone_from_val_l.
  - apply post_weak. now apply step_eq_val.
  - apply post_weak. now apply step_hash_val.
  - apply post_weak. now apply step_fmt_val.
Qed.

(** ** Whole programs *)

Lemma drun_l prog st leak :
  dinv G st leak -> Forall (dstep_typed G) prog -> dyn_in_range P G prog st ->
  In Abort (fst (drun P G prog st)) /\
    (forall o, In o (fst (drun P G prog st)) -> match o with UB _ => False | _ => True end) \/
  exists leak' lost again,
    dinv G (snd (drun P G prog st)) (leak' ++ leak) /\
    Forall safe (fst (drun P G prog st)) /\
    List.length (fst (drun P G prog st)) = List.length prog /\
    bal G (stored G st) (given G prog (fst (drun P G prog st)) ++ again) (w_trace (d_world st))
          (stored G (snd (drun P G prog st))) (taken G prog (fst (drun P G prog st))) lost
          (w_trace (d_world (snd (drun P G prog st)))) /\
    (none_left_dropped prog (fst (drun P G prog st)) -> again = []) /\
    (forall rs, fst (drun P G prog st) = map Ret rs -> keeps_all prog rs -> leak' = [] /\ lost = []).
Proof using HG HC HL.
  revert st leak. induction prog as [|s prog IH]; intros st leak HI Hty Hin.
  - right. exists [], [], []. cbn. csplit; auto. intros q; cnts q; lia.
  - inversion Hty as [|s' prog' Hs Hprog]; subst. destruct Hin as [Hr Hin].
    pose proof (run_dstep_l s st leak HI Hs Hr) as HP. cbn [drun].
    destruct (run_dstep P G s st) as [o st1] eqn:E. cbn [snd] in Hin.
    inversion HP as [st' Heq|Heq|a st' lk lost1 HI' HB HLo Heq|p st' lk lost1 ag1 HI' HB HA Heq]; subst o; try subst st'.
    + left. cbn [fst]. split; [now left|]. intros o [<-|[]]. exact I.
    + subst st1. destruct (IH st leak HI Hprog Hin) as [[HAb HU]|(leak' & lost & ag & HI2 & HSf & HLn & HB2 & HA2 & HK)];
      destruct (drun P G prog st) as [rs st2] eqn:E2; cbn [fst snd] in *; [left|right].
      { split; [now right|]. intros o [<-|Ho]; [exact I|now apply HU]. }
      exists leak', lost, ag.
      csplit; [exact HI2|constructor; [exact I|exact HSf]|cbn; now rewrite HLn| | |].
      * cbn [given taken]. replace (step_takes G s DInvalid) with (@nil tval) by now destruct s. exact HB2.
      * intros Hm. apply HA2. intros s0 p0 H0. apply (Hm s0 p0). now right.
      * intros [|r0 rs0] Eq; cbn [map] in Eq; [discriminate|]. injection Eq as <- Eq.
        intros HKA. inversion HKA; subst. now apply (HK rs0).
    + destruct (IH st1 (lk ++ leak) HI' Hprog Hin) as [[HAb HU]|(leak' & lost & ag & HI2 & HSf & HLn & HB2 & HA2 & HK)];
      destruct (drun P G prog st1) as [rs st2] eqn:E2; cbn [fst snd] in *; [left|right].
      { split; [now right|]. intros o [<-|Ho]; [exact I|now apply HU]. }
      exists (leak' ++ lk), (lost1 ++ lost), ag. rewrite <- app_assoc.
      csplit; [exact HI2|constructor; [exact I|exact HSf]|cbn; now rewrite HLn| | |].
      * cbn [given taken]. intros q. specialize (HB q). specialize (HB2 q).
        revert HB HB2. cnts q. lia.
      * intros Hm. apply HA2. intros s0 p0 H0. apply (Hm s0 p0). now right.
      * intros [|r0 rs0] Eq; cbn [map] in Eq; [discriminate|]. injection Eq as <- Eq.
        intros HKA. inversion HKA; subst. destruct (HLo ltac:(assumption)) as [-> ->].
        destruct (HK rs0 eq_refl ltac:(assumption)) as [-> ->]. auto.
    + destruct (IH st1 (lk ++ leak) HI' Hprog Hin) as [[HAb HU]|(leak' & lost & ag & HI2 & HSf & HLn & HB2 & HA2 & HK)];
      destruct (drun P G prog st1) as [rs st2] eqn:E2; cbn [fst snd] in *; [left|right].
      { split; [now right|]. intros o [<-|Ho]; [exact I|now apply HU]. }
      exists (leak' ++ lk), (lost1 ++ lost), (ag1 ++ ag). rewrite <- app_assoc.
      csplit; [exact HI2|constructor; [exact I|exact HSf]|cbn; now rewrite HLn| | |].
      * cbn [given taken]. intros q. specialize (HB q). specialize (HB2 q).
        revert HB HB2. cnts q. lia.
      * intros Hm. rewrite HA by (apply (Hm s p); now left).
        apply HA2. intros s0 p0 H0. apply (Hm s0 p0). now right.
      * intros [|r0 rs0] Eq; cbn [map] in Eq; discriminate.
Qed.

End Loud.
