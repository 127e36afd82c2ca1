(** * The allocator ledger of arbitrary programs over [VecCopy] buffers.

    MachineProofs.v describes buffers by the list of values they hold, which needs every call to
    be in range.  Here only the shape of a buffer is tracked (block, capacity, length, element
    type), nothing about its bytes, and no call is excluded. *)

From Verif Require Export MachineProofs.

(** Outcomes that are not a wrong deallocation and not an abort. *)
Definition mild {A} (o : outcome A) : Prop :=
  match o with
  | UB u => u <> UbDealloc
  | Abort => False
  | _ => True
  end.

Lemma mild_bind {A B} (o : outcome A) (k : A -> outcome B) :
  mild o -> (forall a, mild (k a)) -> mild (obind o k).
Proof. destruct o; cbn; auto. Qed.

Lemma umul_mild P a b : mild (umul P a b).
Proof. unfold umul. destruct (_ <=? _); [exact I|]. destruct (overflow_checks P); exact I. Qed.
Lemma uadd_mild P a b : mild (uadd P a b).
Proof. unfold uadd. destruct (_ <=? _); [exact I|]. destruct (overflow_checks P); exact I. Qed.
Lemma assert_mild b : mild (assert_ b).
Proof. destruct b; exact I. Qed.
Lemma debug_assert_mild P b : mild (debug_assert P b).
Proof. unfold debug_assert. destruct (debug_assertions P); [destruct b|]; exact I. Qed.
Lemma udiv_mild a b : mild (udiv a b).
Proof. unfold udiv. destruct (b =? 0); exact I. Qed.
Lemma umod_mild a b : mild (umod a b).
Proof. unfold umod. destruct (b =? 0); exact I. Qed.
Lemma index_range_mild {A} (l : list A) a b : mild (index_range l a b).
Proof. unfold index_range. destruct (_ && _); exact I. Qed.
Lemma chunks_exact_mild {A} n (l : list A) : mild (chunks_exact n l).
Proof. unfold chunks_exact. destruct (_ =? _); exact I. Qed.
Lemma read_val_mild G t bs : mild (read_val G t bs).
Proof. unfold read_val. destruct (dec G t bs); [exact I|discriminate]. Qed.
Lemma read_vals_mild G t n bs : mild (read_vals G t n bs).
Proof.
  revert bs. induction n as [|n IH]; intros bs; cbn [read_vals]; [exact I|].
  destruct (_ <? _); [discriminate|]. apply mild_bind; [apply read_val_mild|]. intros v.
  apply mild_bind; [apply IH|]. intros vs. exact I.
Qed.

Ltac mild :=
  repeat first
    [ exact I
    | discriminate
    | apply umul_mild | apply uadd_mild | apply assert_mild | apply debug_assert_mild
    | apply udiv_mild | apply umod_mild | apply index_range_mild | apply chunks_exact_mild
    | apply read_val_mild | apply read_vals_mild
    | assumption
    | apply mild_bind; [|intros ?]
    | match goal with
      | |- mild (if ?b then _ else _) => destruct b
      | |- mild (match ?x with _ => _ end) => destruct x
      end ].



Lemma index_byte_range_mild P es i : mild (index_byte_range P es i).
Proof. unfold index_byte_range. mild. Qed.

Section Ledger.
Context {V : Type} (P : profile) (G : tenv) (HG : wf_tenv G) (build : tyid -> V).

(** ** The shape of a buffer *)

Record Sh (t : tyid) (d : vecvoid) : Prop := {
  sh_elem : vv_elem d = elem_new G t;
  sh_sized : t_size (G t) <> 0;
  sh_copy : t_copy (G t) = true;
  sh_len : vv_len d <= vv_cap d;
  sh_cap1 : 1 <= vv_cap d;
  sh_max : vv_cap d * t_size (G t) <= max_alloc (t_align (G t));
  sh_blk : vv_blk d <> None
}.

Lemma rep_sh t d xs : Rep G t d xs -> t_copy (G t) = true -> Sh t d.
Proof.
  intros H Hc. split; try apply H; [exact Hc|]. rewrite (rep_len _ _ _ _ H). apply H.
Qed.

(** A represented buffer of the same shape. *)
Definition tidy (t : tyid) (d : vecvoid) : vecvoid :=
  VecVoid (vv_blk d) (vv_len d) (vv_cap d) (vv_elem d)
          (encs G t (repeat 0%Z (N.to_nat (vv_len d)))).

Lemma lenN_repeat {A} (x : A) n : lenN (repeat x (N.to_nat n)) = n.
Proof. unfold lenN. rewrite repeat_length. lia. Qed.

Lemma sh_rep t d : Sh t d -> Rep G t (tidy t d) (repeat 0%Z (N.to_nat (vv_len d))).
Proof.
  intros H. split; cbn [tidy vv_elem vv_len vv_bytes vv_cap vv_blk]; try apply H; auto.
  - now rewrite lenN_repeat.
  - rewrite lenN_repeat. apply H.
Qed.

Lemma sh_own t d :
  Sh t d -> vv_own d = owned (vv_blk d) (vv_cap d * t_size (G t)) (t_align (G t)).
Proof. intros H. exact (rep_own G HG t _ _ (sh_rep t d H)). Qed.

Lemma aligned_vec_sh t d :
  Sh t d -> aligned_vec_unchecked P (t_align (G t)) d = Ret (carrier G t d).
Proof.
  intros H. pose proof (aligned_vec_rep P G HG t _ _ (sh_rep t d H)) as E.
  unfold aligned_vec_unchecked in *. cbn [tidy vv_elem vv_len vv_bytes vv_cap vv_blk] in E.
  repeat match goal with
  | |- context [debug_assert P ?b] => destruct (debug_assert P b); cbn [obind] in *; try discriminate E
  | |- context [umul P ?a ?b] => destruct (umul P a b); cbn [obind] in *; try discriminate E
  end.
  injection E as E1 E2. unfold carrier. now rewrite E1, E2.
Qed.

Lemma carrier_own_sh t d :
  Sh t d -> v_own (t_align (G t)) (t_align (G t)) (carrier G t d) = vv_own d.
Proof. intros H. exact (carrier_own G HG t _ _ (sh_rep t d H)). Qed.

Lemma carrier_ok_sh t d :
  Sh t d -> svec_ok (t_align (G t)) (t_align (G t)) (carrier G t d).
Proof.
  intros H. destruct (carrier_ok G HG t _ _ (sh_rep t d H)) as [H1 H2 H3]. split; assumption.
Qed.

(** ** The dispatch *)

(** What an operation on a vector of carriers may do; [X] is other state, with its blocks. *)
Definition vfine {X A} (sz al : N) (Q : X -> Prop) (own : X -> list block) (l : list block)
    (r : outcome A * svec * X * world) : Prop :=
  let '(o, v, x, w) := r in
  match o with
  | Ret _ => svec_ok sz al v /\ Q x /\ Owns w (v_own sz al v ++ own x ++ l)
  | Panic _ => svec_ok sz al v /\ Q x /\ exists leak, Owns w (v_own sz al v ++ own x ++ leak ++ l)
  | UB u => u <> UbDealloc
  | Abort => False
  end.
Definition vfine0 {A} (sz al : N) (l : list block) (r : outcome A * svec * world) : Prop :=
  let '(o, v, w) := r in
  match o with
  | Ret _ | Panic _ => svec_ok sz al v /\ Owns w (v_own sz al v ++ l)
  | UB u => u <> UbDealloc
  | Abort => False
  end.

(** What an operation on a buffer of [t] may do. *)
Definition xfine {X A} (t : tyid) (Q : X -> Prop) (own : X -> list block) (l : list block)
    (r : outcome A * vecvoid * X * world) : Prop :=
  let '(o, d, x, w) := r in
  match o with
  | Ret _ => Sh t d /\ Q x /\ Owns w (vv_own d ++ own x ++ l)
  | Panic _ => Poisoned d /\ Q x /\ exists leak, Owns w (own x ++ leak ++ l)
  | UB u => u <> UbDealloc
  | Abort => False
  end.
Definition dfine {A} (t : tyid) (l : list block) (r : outcome A * vecvoid * world) : Prop :=
  let '(o, d, w) := r in
  match o with
  | Ret _ => Sh t d /\ Owns w (vv_own d ++ l)
  | Panic _ => (Sh t d \/ Poisoned d) /\ exists leak, Owns w (vv_own d ++ leak ++ l)
  | UB u => u <> UbDealloc
  | Abort => False
  end.

Lemma override_sh t v w l :
  t_size (G t) <> 0 -> t_copy (G t) = true ->
  svec_ok (t_align (G t)) (t_align (G t)) v ->
  Owns w (v_own (t_align (G t)) (t_align (G t)) v ++ l) ->
  match from_vec_override P (t_align (G t)) v (elem_new G t) with
  | Ret d => Sh t d /\ Owns w (vv_own d ++ l)
  | Panic _ => True
  | _ => False
  end.
Proof.
  intros Hs Hc Hv HO. unfold from_vec_override.
  pose proof (wf_align_pos G t HG) as Ha. pose proof (chunks_size G HG t) as Hk.
  pose proof (chunks_pos G HG t Hs) as Hk1.
  rewrite N.div_same by lia. rewrite v_capacity_sized by lia.
  unfold elem_new. cbn [e_alignment e_size]. fold (chunks_of G t).
  rewrite N.eqb_refl. cbn [assert_ obind].
  destruct (chunks_of G t <=? v_cap v) eqn:E1; [|exact I]. cbn [assert_ obind].
  apply N.leb_le in E1. destruct Hv as [Hp Hl Hm].
  pose proof (max_alloc_le (t_align (G t))) as Hmx.
  assert (Hc64 : v_cap v <= usize_max).
  { transitivity (v_cap v * t_align (G t)); [nia|]. unfold usize_max, isize_max in *. lia. }
  unfold umul. rewrite !N.mul_1_r.
  rewrite (proj2 (N.leb_le (v_len v) usize_max)) by lia. cbn [obind].
  unfold umod, udiv. rewrite (proj2 (N.eqb_neq (chunks_of G t) 0)) by lia. cbn [obind].
  destruct (v_len v mod chunks_of G t =? 0) eqn:E2; [|exact I]. cbn [assert_ obind].
  rewrite (proj2 (N.leb_le (v_cap v) usize_max)) by lia. cbn [obind].
  destruct (v_cap v mod chunks_of G t =? 0) eqn:E3; [|exact I]. cbn [assert_ obind].
  apply N.eqb_eq in E2, E3.
  pose proof (N.div_mod (v_len v) (chunks_of G t) ltac:(lia)) as D1.
  pose proof (N.div_mod (v_cap v) (chunks_of G t) ltac:(lia)) as D2.
  set (n := v_len v / chunks_of G t) in *. set (c := v_cap v / chunks_of G t) in *.
  assert (Hcap : c * t_size (G t) = v_cap v * t_align (G t)) by (rewrite Hk at 1; nia).
  assert (Hc1 : 1 <= c) by nia.
  assert (Hsh : Sh t (VecVoid (v_blk v) n c (ElemInfo t (chunks_of G t) (t_align (G t))) (v_bytes v))).
  { split; cbn [vv_elem vv_len vv_cap vv_blk]; try assumption; try reflexivity; try lia; try nia.
    apply Hp. nia. }
  split; [exact Hsh|]. rewrite (sh_own _ _ Hsh). cbn [vv_blk vv_cap]. rewrite Hcap. exact HO.
Qed.

Lemma v_drop_sh sz al v w l :
  svec_ok sz al v -> Owns w (v_own sz al v ++ l) ->
  exists w', v_drop_nodrop sz al v w = (Ret tt, w') /\ Owns w' l.
Proof.
  intros Hv HO. destruct (v_drop_ok sz al v w l (so_ptr _ _ _ Hv) HO) as (w' & H1 & H2 & _). eauto.
Qed.

Lemma default_fine {A} t l p w leak :
  Owns w (leak ++ l) -> dfine (A := A) t l (Panic p, vv_default, w).
Proof.
  intros HO. split; [right; apply vv_default_poisoned|]. exists leak. exact HO.
Qed.

(** Running a closure on the vector of carriers. *)
Lemma apply_aligned_sh {X A} t d (x : X) w l
    (f : svec -> X -> world -> outcome A * svec * X * world)
    (Q : X -> Prop) (own : X -> list block) :
  Sh t d ->
  vfine (t_align (G t)) (t_align (G t)) Q own l (f (carrier G t d) x w) ->
  xfine t Q own l (apply_aligned_unchecked P (t_align (G t)) f d x w).
Proof.
  intros Hs Hf. unfold apply_aligned_unchecked.
  rewrite (aligned_vec_sh t d Hs), (sh_elem _ _ Hs).
  destruct (f (carrier G t d) x w) as [[[o v'] x'] w'].
  destruct o as [a|p|u|]; cbn [vfine] in Hf; cbn [retype].
  - destruct Hf as (Hv & HQ & HO').
    pose proof (override_sh t v' w' _ (sh_sized _ _ Hs) (sh_copy _ _ Hs) Hv HO') as H.
    destruct (from_vec_override _ _ _ _) as [d'|p|u|]; try contradiction; cbn [retype].
    + destruct H. cbn. auto.
    + cbn [xfine]. csplit; [apply vv_default_poisoned|exact HQ|]. exists (v_own (t_align (G t)) (t_align (G t)) v').
      eapply Owns_perm; [|exact HO']. apply Permutation_app_swap_app.
  - destruct Hf as (Hv & HQ & leak & HO'). destruct (v_drop_sh _ _ _ _ _ Hv HO') as (w'' & -> & HO'').
    cbn [unwind xfine]. csplit; [apply vv_default_poisoned|exact HQ|]. exists leak. exact HO''.
  - exact Hf.
  - contradiction.
Qed.

Lemma dispatch_sh {A} ev t d w l (f : N -> svec -> world -> outcome A * svec * world) :
  Sh t d -> Owns w (vv_own d ++ l) ->
  (ev (t_align (G t)) = Some (t_align (G t)) \/ ev (t_align (G t)) = None) ->
  (forall v, svec_ok (t_align (G t)) (t_align (G t)) v ->
     Owns w (v_own (t_align (G t)) (t_align (G t)) v ++ l) ->
     vfine0 (t_align (G t)) (t_align (G t)) l (f (t_align (G t)) v w)) ->
  dfine t l (dispatch ev P f d w).
Proof.
  intros Hs HO Hev Hf. unfold dispatch. rewrite (sh_elem _ _ Hs). cbn [elem_new e_alignment].
  destruct Hev as [-> | ->].
  2:{ split; [now left|]. exists []. exact HO. }
  assert (Hv : vfine (t_align (G t)) (t_align (G t)) (fun _ => True) (fun _ => []) l
                 (lift0 (f (t_align (G t))) (carrier G t d) tt w)).
  { rewrite <- (carrier_own_sh t d Hs) in HO. specialize (Hf _ (carrier_ok_sh t d Hs) HO).
    unfold lift0. destruct (f (t_align (G t)) (carrier G t d) w) as [[o v'] w'].
    destruct o; cbn in Hf |- *; try tauto. destruct Hf. csplit; auto. exists []. assumption. }
  pose proof (apply_aligned_sh t d tt w l _ _ _ Hs Hv) as H.
  destruct (apply_aligned_unchecked _ _ _ _ _ _) as [[[o d'] x'] w'].
  destruct o; cbn in H |- *; try tauto.
  destruct H as (H1 & _ & leak & H2). split; [now right|]. exists leak. now rewrite (vv_own_poisoned _ H1).
Qed.

(** ** Operations on carriers *)

Lemma v_reserve_fine sz al n v w l :
  sz <> 0 -> svec_ok sz al v -> Owns w (v_own sz al v ++ l) ->
  vfine0 sz al l (v_reserve sz al n v w) /\
  match v_reserve sz al n v w with
  | (Ret _, v', _) => v_len v' = v_len v /\ v_len v + n <= v_cap v'
  | _ => True
  end.
Proof.
  intros Hsz Hv HO.
  destruct (v_reserve_spec sz al n v w l Hsz Hv HO) as [[H1 ->]|[H1 [(b & w' & -> & H2 & H3 & H4 & H5 & _)|[-> _]]]].
  - split; [split; assumption|]. auto.
  - split; [split; [split; cbn [v_blk v_cap v_len]; auto; unfold grow_cap; lia|exact H5]|].
    cbn [v_len v_cap]. split; [reflexivity|]. unfold grow_cap. lia.
  - split; [split; assumption|exact I].
Qed.

Lemma v_push_fine sz al bs v w l :
  sz <> 0 -> svec_ok sz al v -> Owns w (v_own sz al v ++ l) ->
  vfine0 sz al l (v_push sz al bs v w).
Proof.
  intros Hsz Hv HO. unfold v_push. rewrite v_capacity_sized by assumption.
  destruct (v_len v =? v_cap v) eqn:E.
  - destruct (v_grow_spec sz al 1 v w l Hsz Hv HO) as [(b & w' & -> & H2 & H3 & H4 & H5 & _)|[-> _]].
    + split; [split; cbn [v_blk v_cap v_len]; auto; unfold grow_cap; lia|exact H5].
    + split; assumption.
  - apply N.eqb_neq in E. pose proof (so_len _ _ _ Hv). split; [|exact HO].
    destruct Hv as [H1 H2 H3]. split; cbn [v_blk v_cap v_len]; auto; lia.
Qed.

Lemma with_val_fine {A} sz al l o v w (k : N -> outcome A * svec * world) :
  mild o -> svec_ok sz al v -> Owns w (v_own sz al v ++ l) ->
  (forall n, vfine0 sz al l (k n)) -> vfine0 sz al l (with_val o v w k).
Proof. intros Ho Hv HO Hk. destruct o; cbn in *; auto. Qed.

Lemma ev_some t : eval_align (t_align (G t)) = Some (t_align (G t)) \/ eval_align (t_align (G t)) = None.
Proof. left. apply eval_align_legal. apply HG. Qed.
Lemma ev_limited t :
  eval_align_limited (t_align (G t)) = Some (t_align (G t)) \/ eval_align_limited (t_align (G t)) = None.
Proof.
  destruct (N.le_gt_cases (t_align (G t)) 8192).
  - left. apply eval_align_limited_legal; [apply HG|assumption].
  - right. apply eval_align_limited_big; [apply HG|assumption].
Qed.
Lemma al_ne t : t_align (G t) <> 0.
Proof. pose proof (wf_align_pos G t HG). lia. Qed.

Lemma vv_clear_sh t d w l :
  Sh t d -> Owns w (vv_own d ++ l) -> dfine t l (vv_clear P d w).
Proof.
  intros Hs HO. apply dispatch_sh; auto using ev_some. intros v Hv HO'. cbn.
  split; [|exact HO']. destruct Hv. split; cbn; auto; lia.
Qed.

Lemma vv_reserve_sh t d n w l :
  Sh t d -> Owns w (vv_own d ++ l) -> dfine t l (vv_reserve P n d w).
Proof.
  intros Hs HO. apply dispatch_sh; auto using ev_some. intros v Hv HO'.
  apply with_val_fine; auto using umul_mild. intros m. now apply v_reserve_fine; [apply al_ne| |].
Qed.

Lemma vv_truncate_sh t d n w l :
  Sh t d -> Owns w (vv_own d ++ l) -> dfine t l (vv_truncate P n d w).
Proof.
  intros Hs HO. apply dispatch_sh; auto using ev_some. intros v Hv HO'.
  apply with_val_fine; auto using umul_mild. intros m. unfold v_truncate.
  destruct (v_len v <? m) eqn:E; [split; assumption|]. apply N.ltb_ge in E.
  split; [|exact HO']. destruct Hv. split; cbn; auto; lia.
Qed.

Lemma vv_push_sh t d bs w l :
  Sh t d -> Owns w (vv_own d ++ l) -> dfine t l (vv_push P bs d w).
Proof.
  intros Hs HO. apply dispatch_sh; auto using ev_some. intros v Hv HO'.
  destruct (_ <? _); [discriminate|]. apply v_push_fine; auto. apply al_ne.
Qed.

Lemma vv_rotate_left_sh t d n w l :
  Sh t d -> Owns w (vv_own d ++ l) -> dfine t l (vv_rotate_left P n d w).
Proof.
  intros Hs HO. apply dispatch_sh; auto using ev_limited. intros v Hv HO'.
  apply with_val_fine; auto using umul_mild. intros m. unfold pure_op, v_rotate_left.
  destruct (_ <=? _); [|split; assumption]. split; [|exact HO']. destruct Hv. split; assumption.
Qed.
Lemma vv_rotate_right_sh t d n w l :
  Sh t d -> Owns w (vv_own d ++ l) -> dfine t l (vv_rotate_right P n d w).
Proof.
  intros Hs HO. apply dispatch_sh; auto using ev_limited. intros v Hv HO'.
  apply with_val_fine; auto using umul_mild. intros m. unfold pure_op, v_rotate_right.
  destruct (_ <=? _); [|split; assumption]. split; [|exact HO']. destruct Hv. split; assumption.
Qed.

(** [append]: both buffers keep a shape, or are what a panic leaves. *)
Definition shp (t : tyid) (d : vecvoid) : Prop := Sh t d \/ Poisoned d.

Lemma vv_append_sh t d d2 w l :
  Sh t d -> Sh t d2 -> Owns w (vv_own d ++ vv_own d2 ++ l) ->
  let '(o, d', d2', w') := vv_append P d d2 w in
  match o with
  | Ret _ => Sh t d' /\ shp t d2' /\ Owns w' (vv_own d' ++ vv_own d2' ++ l)
  | Panic _ => shp t d' /\ shp t d2' /\ exists leak, Owns w' (vv_own d' ++ vv_own d2' ++ leak ++ l)
  | UB u => u <> UbDealloc
  | Abort => False
  end.
Proof.
  intros Hs Hs2 HO. unfold vv_append. rewrite (sh_elem _ _ Hs), (sh_elem _ _ Hs2).
  cbn [elem_new e_type_id e_alignment e_size]. rewrite !N.eqb_refl. cbn [negb]. rewrite !andb_false_r.
  rewrite eval_align_legal by apply HG.
  set (a := t_align (G t)) in *.
  match goal with |- context [apply_aligned_unchecked P a ?f d d2 w] => set (F := f) end.
  assert (Hv : vfine a a (shp t) vv_own l (F (carrier G t d) d2 w)).
  { unfold F. clear F.
    match goal with |- context [apply_aligned_unchecked P a ?f d2 (carrier G t d) w] => set (F := f) end.
    assert (Hv : vfine a a (svec_ok a a) (v_own a a) l (F (carrier G t d2) (carrier G t d) w)).
    { unfold F, v_append. rewrite <- (carrier_own_sh t d Hs), <- (carrier_own_sh t d2 Hs2) in HO.
      fold a in HO. pose proof (carrier_ok_sh t d2 Hs2) as Hk2. fold a in Hk2.
      destruct (v_reserve_fine a a (v_len (carrier G t d2)) (carrier G t d) w _ (al_ne t)
                  (carrier_ok_sh t d Hs) HO) as [H1 H2].
      destruct (v_reserve a a (v_len (carrier G t d2)) (carrier G t d) w) as [[o v1] w1].
      destruct o as [[]|p|u|]; cbn [vfine0] in H1; cbn [vfine].
      - destruct H1 as [H1 HO1]. destruct H2 as [H2 H3]. csplit.
        + destruct Hk2. split; cbn [v_blk v_cap v_len]; auto; lia.
        + destruct H1. split; cbn [v_blk v_cap v_len]; auto. rewrite H2. exact H3.
        + apply Owns_swap. exact HO1.
      - destruct H1 as [H1 HO1]. csplit; auto. exists []. apply Owns_swap. exact HO1.
      - exact H1.
      - exact H1. }
    pose proof (apply_aligned_sh t d2 (carrier G t d) w l F _ _ Hs2 Hv) as H. fold a in H.
    destruct (apply_aligned_unchecked P a F d2 (carrier G t d) w) as [[[o d'] v'] w'].
    destruct o; cbn [xfine] in H; cbn [vfine].
    - destruct H as (H1 & H2 & H3). csplit; auto; [now left|]. now apply Owns_swap.
    - destruct H as (H1 & H2 & leak & H3). csplit; auto; [now right|]. exists leak.
      rewrite (vv_own_poisoned _ H1). exact H3.
    - exact H.
    - exact H. }
  pose proof (apply_aligned_sh t d d2 w l F _ _ Hs Hv) as H. fold a in H.
  destruct (apply_aligned_unchecked P a F d d2 w) as [[[o d'] d2'] w'] eqn:E.
  destruct o as [[]|p|u|]; cbn [xfine] in H; try exact H; cbv beta iota.
  destruct H as (H1 & H2 & leak & H3). csplit; auto; [now right|]. exists leak.
  rewrite (vv_own_poisoned _ H1). exact H3.
Qed.

(** ** Dropping and cloning *)

Lemma vv_drop_sh t d w l :
  Sh t d -> Owns w (vv_own d ++ l) -> exists w', vv_drop P d w = (Ret tt, w') /\ Owns w' l.
Proof.
  intros Hs HO. unfold vv_drop. rewrite (sh_elem _ _ Hs). cbn [elem_new e_alignment].
  rewrite eval_align_legal by apply HG. rewrite (aligned_vec_sh t d Hs).
  rewrite <- (carrier_own_sh t d Hs) in HO. exact (v_drop_sh _ _ _ _ _ (carrier_ok_sh t d Hs) HO).
Qed.

Lemma vv_clone_sh t d w l :
  Sh t d -> Owns w l ->
  match vv_clone P d w with
  | (Ret d', w') => Sh t d' /\ Owns w' (vv_own d' ++ l)
  | (Panic _, w') => exists leak, Owns w' (leak ++ l)
  | (UB u, _) => u <> UbDealloc
  | (Abort, _) => False
  end.
Proof.
  intros Hs HO. unfold vv_clone. rewrite (sh_elem _ _ Hs). cbn [elem_new e_alignment].
  rewrite eval_align_legal by apply HG. rewrite (aligned_vec_sh t d Hs).
  set (a := t_align (G t)) in *. pose proof (al_ne t) as Ha. fold a in Ha.
  rewrite v_capacity_sized by assumption. unfold v_with_capacity.
  rewrite (proj2 (N.eqb_neq a 0)) by assumption.
  destruct (_ <=? _) eqn:E.
  2:{ cbn [retype]. exists []. exact HO. }
  apply N.leb_le in E.
  destruct (alloc_owns (v_cap (carrier G t d) * a) a w l HO) as (b & w1 & -> & HO1 & Hp & _).
  assert (Hk : svec_ok a a (SVec b 0 (v_cap (carrier G t d)) [])).
  { split; cbn [v_blk v_len v_cap]; auto. apply N.le_0_l. }
  unfold v_clone_from, v_clear. cbn [v_blk v_cap].
  destruct (v_reserve_fine a a (v_len (carrier G t d)) _ w1 l Ha Hk HO1) as [H1 H2].
  destruct (v_reserve _ _ _ _ _) as [[o v1] w2].
  destruct o as [[]|p|u|]; cbn [vfine0] in H1; cbn [retype].
  - destruct H1 as [H1 HO2]. destruct H2 as [H2 H3]. cbn [v_len] in H2, H3.
    assert (Hk1 : svec_ok a a (SVec (v_blk v1) (v_len (carrier G t d)) (v_cap v1) (v_bytes (carrier G t d)))).
    { destruct H1. split; cbn [v_blk v_len v_cap]; auto. }
    pose proof (override_sh t _ w2 l (sh_sized _ _ Hs) (sh_copy _ _ Hs) Hk1 HO2) as H. fold a in H.
    change (ElemInfo t (t_size (G t) / t_align (G t)) (t_align (G t))) with (elem_new G t).
    destruct (from_vec_override _ _ _ _); try contradiction; [exact H|]. eexists. exact HO2.
  - destruct H1 as [H1 HO2]. destruct (v_drop_sh _ _ _ _ _ H1 HO2) as (w3 & -> & HO3).
    cbn [unwind]. exists []. exact HO3.
  - exact H1.
  - exact H1.
Qed.

Lemma read_vals_no_panic t n bs p : read_vals G t n bs <> Panic p.
Proof.
  revert bs. induction n as [|n IH]; intros bs; cbn [read_vals]; [discriminate|].
  destruct (_ <? _); [discriminate|]. unfold read_val. destruct (dec _ _ _); cbn [obind]; [|discriminate].
  specialize (IH (skipnN (t_size (G t)) bs)). destruct (read_vals _ _ _ _); cbn; congruence.
Qed.

Lemma vec_drop_sh t v w l :
  t_copy (G t) = true -> svec_ok (t_size (G t)) (t_align (G t)) v ->
  Owns w (v_own (t_size (G t)) (t_align (G t)) v ++ l) ->
  match vec_drop G t v w with
  | (Ret _, w') => Owns w' l
  | (UB u, _) => u <> UbDealloc
  | _ => False
  end.
Proof.
  intros Hc Hv HO. unfold vec_drop.
  pose proof (read_vals_mild G t (N.to_nat (v_len v)) (v_bytes v)) as Hm.
  assert (Hnp : forall p, vec_elems G t v <> Panic p) by (intros p; apply read_vals_no_panic).
  fold (vec_elems G t v) in Hm. destruct (vec_elems G t v) as [vs|p|u|]; cbn [mild] in Hm; cbn [retype].
  - rewrite drop_vals_copy by assumption. destruct (v_drop_sh _ _ _ _ _ Hv HO) as (w' & -> & HO'). exact HO'.
  - now elim (Hnp p).
  - exact Hm.
  - exact Hm.
Qed.

(** ** [push_as], [resize] *)

Lemma own_sized t d :
  Sh t d -> v_own (t_size (G t)) (t_align (G t))
              (SVec (vv_blk d) (vv_len d) (vv_cap d) (vv_bytes d)) = vv_own d.
Proof. intros H. now rewrite (sh_own t d H). Qed.

Lemma sized_ok t d :
  Sh t d -> svec_ok (t_size (G t)) (t_align (G t)) (SVec (vv_blk d) (vv_len d) (vv_cap d) (vv_bytes d)).
Proof.
  intros H. split; cbn [v_blk v_len v_cap]; try apply H. intros _. apply H.
Qed.

Lemma from_vec_sh t v w l :
  t_size (G t) <> 0 -> t_copy (G t) = true ->
  svec_ok (t_size (G t)) (t_align (G t)) v ->
  Owns w (v_own (t_size (G t)) (t_align (G t)) v ++ l) ->
  dfine t l (match vv_from_vec G t v w with
             | (Ret d, w') => (Ret tt, d, w')
             | (o, w') => (retype o, vv_default, w')
             end).
Proof.
  intros Hs Hc Hv HO. unfold vv_from_vec, into_valid_vec. rewrite v_capacity_sized by assumption.
  assert (Hsh : forall v', svec_ok (t_size (G t)) (t_align (G t)) v' -> 1 <= v_cap v' ->
            Sh t (VecVoid (v_blk v') (v_len v') (v_cap v') (elem_new G t) (v_bytes v'))).
  { intros v' [H1 H2 H3] H4. split; cbn [vv_elem vv_len vv_cap vv_blk]; auto. apply H1. nia. }
  destruct (v_cap v =? 0) eqn:E.
  - apply N.eqb_eq in E.
    destruct (v_reserve_fine (t_size (G t)) (t_align (G t)) 1 v w l Hs Hv HO) as [H1 H2].
    destruct (v_reserve _ _ _ _ _) as [[o v1] w1].
    destruct o as [[]|p|u|]; cbn [vfine0] in H1; cbn [retype].
    + destruct H1 as [H1 HO1]. rewrite v_capacity_sized by assumption. specialize (Hsh v1 H1 ltac:(lia)).
      cbn [dfine]. split; [exact Hsh|]. rewrite (sh_own _ _ Hsh). exact HO1.
    + destruct H1 as [H1 HO1]. eapply default_fine. exact HO1.
    + exact H1.
    + exact H1.
  - apply N.eqb_neq in E. rewrite v_capacity_sized by assumption. specialize (Hsh v Hv ltac:(lia)).
    cbn [dfine]. split; [exact Hsh|]. rewrite (sh_own _ _ Hsh). exact HO.
Qed.

Definition cfine {A} (t : tyid) (l : list block) (r : outcome A * veccopy V * world) : Prop :=
  let '(o, b, w) := r in dfine t l (o, vc_data b, w).

Lemma cfine_map {A B} t l (r : outcome A * veccopy V * world) (k : A -> B) :
  cfine t l r -> cfine t l (let '(o, b, w) := r in (let! a := o in Ret (k a), b, w)).
Proof. destruct r as [[[a|p|u|] b] w]; exact (fun H => H). Qed.

Lemma on_data_fine {A} t l (f : vecvoid -> world -> outcome A * vecvoid * world) (b : veccopy V) w :
  dfine t l (f (vc_data b) w) -> cfine t l (on_data f b w).
Proof. unfold on_data. now destruct (f (vc_data b) w) as [[o d] w']. Qed.

Lemma same_fine {A} t l (a : A) (b : veccopy V) w :
  Sh t (vc_data b) -> Owns w (vv_own (vc_data b) ++ l) -> cfine t l (Ret a, b, w).
Proof. intros. now split. Qed.
Lemma same_panic {A} t l p (b : veccopy V) w :
  Sh t (vc_data b) -> Owns w (vv_own (vc_data b) ++ l) -> cfine (A := A) t l (Panic p, b, w).
Proof. intros. split; [now left|]. now exists []. Qed.
Lemma same_mild {A} t l (o : outcome A) (b : veccopy V) w :
  mild o -> Sh t (vc_data b) -> Owns w (vv_own (vc_data b) ++ l) -> cfine t l (o, b, w).
Proof.
  intros Ho Hs HO. destruct o; cbn in Ho; try exact Ho; [now apply same_fine|now apply same_panic].
Qed.

Lemma sh_type t (b : veccopy V) : Sh t (vc_data b) -> vc_element_type_id b = t.
Proof. intros H. unfold vc_element_type_id. now rewrite (sh_elem _ _ H). Qed.
Lemma sh_check t t' (b : veccopy V) : Sh t (vc_data b) -> vc_check t' b = true -> t' = t.
Proof. intros H. unfold vc_check. rewrite (sh_type _ _ H). apply N.eqb_eq. Qed.

Lemma drop_val_owns t v w l :
  Owns w l -> exists o w', drop_val G t v w = (o, w') /\ Owns w' l /\
                           match o with Ret _ | Panic _ => True | _ => False end.
Proof.
  intros HO. unfold drop_val. destruct (t_copy (G t)).
  - exists (Ret tt), w. auto.
  - eexists _, _. csplit; [reflexivity| |].
    + destruct HO as [[H1 H2] H3]. split; [now split|exact H3].
    + destruct (t_drop_panics _ _ _); exact I.
Qed.

Lemma vc_push_as_sh t t' v (b : veccopy V) w l :
  Sh t (vc_data b) -> Owns w (vv_own (vc_data b) ++ l) -> cfine t l (vc_push_as P G t' v b w).
Proof.
  intros Hs HO. unfold vc_push_as. destruct (vc_check t' b) eqn:E.
  - apply (sh_check t) in E; [|exact Hs]. subst t'.
    apply (cfine_map t l _ (fun _ => true)). apply on_data_fine.
    unfold apply_unchecked, into_vec_unchecked. rewrite (sh_elem _ _ Hs).
    rewrite num_bytes_new by assumption. cbn [elem_new e_alignment]. rewrite !N.eqb_refl.
    unfold debug_assert.
    assert (Hd : (if debug_assertions P then Ret tt else Ret tt) = Ret tt) by now destruct (debug_assertions P).
    rewrite Hd. cbn [obind]. clear Hd.
    rewrite <- (own_sized t _ Hs) in HO.
    pose proof (v_push_fine (t_size (G t)) (t_align (G t)) (enc G t v) _ w l (sh_sized _ _ Hs)
                  (sized_ok t _ Hs) HO) as Hf.
    destruct (v_push _ _ _ _ _) as [[o sv'] w']. destruct o as [[]|p|u|]; cbn [vfine0] in Hf.
    + destruct Hf as [H1 HO1].
      pose proof (from_vec_sh t sv' w' l (sh_sized _ _ Hs) (sh_copy _ _ Hs) H1 HO1) as H.
      destruct (vv_from_vec G t sv' w') as [[]]; exact H.
    + destruct Hf as [H1 HO1]. unfold drop_val. rewrite (sh_copy _ _ Hs). cbn [unwind].
      pose proof (vec_drop_sh t sv' w' l (sh_copy _ _ Hs) H1 HO1) as H.
      destruct (vec_drop G t sv' w') as [[x|p'|u|] w'']; try contradiction; cbn [unwind].
      * apply (default_fine t l p w'' []). exact H.
      * exact H.
    + exact Hf.
    + exact Hf.
  - destruct (drop_val_owns t' v w _ HO) as (o & w' & -> & HO' & Ho).
    destruct o; try contradiction; cbn [obind]; [now apply same_fine|now apply same_panic].
Qed.

Lemma vc_push_n_sh n t t' v (b : veccopy V) w l :
  Sh t (vc_data b) -> Owns w (vv_own (vc_data b) ++ l) -> cfine t l (vc_push_n P G n t' v b w).
Proof.
  revert b w. induction n as [|n IH]; intros b w Hs HO; cbn [vc_push_n]; [now apply same_fine|].
  pose proof (vc_push_as_sh t t' v b w l Hs HO) as H.
  destruct (vc_push_as P G t' v b w) as [[[a|p|u|] b'] w']; try exact H.
  destruct H as [H1 H2]. now apply IH.
Qed.

Lemma vc_resize_sh t t' n v (b : veccopy V) w l :
  Sh t (vc_data b) -> Owns w (vv_own (vc_data b) ++ l) -> cfine t l (vc_resize P G t' n v b w).
Proof.
  intros Hs HO. unfold vc_resize. destruct (vc_check t' b); [|now apply same_fine].
  destruct (_ <=? _).
  - assert (H : cfine t l (vc_reserve P (n - vc_len b) b w)) by (apply on_data_fine; now apply vv_reserve_sh).
    destruct (vc_reserve P (n - vc_len b) b w) as [[[a|p|u|] b'] w']; try exact H.
    destruct H as [H1 H2]. apply (cfine_map t l _ (fun _ => true)). now apply vc_push_n_sh.
  - apply (cfine_map t l _ (fun _ => true)). apply on_data_fine. now apply vv_truncate_sh.
Qed.

Lemma vc_push_sh {U} t (r : copy_ref U) (b : veccopy V) w l :
  Sh t (vc_data b) -> Owns w (vv_own (vc_data b) ++ l) -> cfine t l (vc_push P r b w).
Proof.
  intros Hs HO. unfold vc_push. destruct (_ =? _); [|now apply same_panic].
  destruct (_ =? _); [|now apply same_fine].
  apply (cfine_map t l _ (fun _ => true)). apply on_data_fine. now apply vv_push_sh.
Qed.

Lemma vc_extend_loop_sh {U} t (rs : list (copy_ref U)) (b : veccopy V) w l :
  Sh t (vc_data b) -> Owns w (vv_own (vc_data b) ++ l) -> cfine t l (vc_extend_loop P rs b w).
Proof.
  revert b w. induction rs as [|r rs IH]; intros b w Hs HO; cbn [vc_extend_loop]; [now apply same_fine|].
  destruct (negb _); [now apply same_panic|]. destruct (negb _); [now apply same_panic|].
  assert (H : cfine t l (on_data (vv_push P (cr_bytes r)) b w)) by (apply on_data_fine; now apply vv_push_sh).
  destruct (on_data _ b w) as [[[a|p|u|] b'] w']; try exact H.
  destruct H as [H1 H2]. now apply IH.
Qed.

Lemma vc_extend_sh {U} t hint (rs : list (copy_ref U)) (b : veccopy V) w l :
  Sh t (vc_data b) -> Owns w (vv_own (vc_data b) ++ l) -> cfine t l (vc_extend P hint rs b w).
Proof.
  intros Hs HO. unfold vc_extend.
  assert (H : cfine t l (vc_reserve P hint b w)) by (apply on_data_fine; now apply vv_reserve_sh).
  destruct (vc_reserve P hint b w) as [[[a|p|u|] b'] w']; try exact H.
  destruct H as [H1 H2]. now apply vc_extend_loop_sh.
Qed.

(** ** Reading and writing in place *)

(** Only the bytes differ. *)
Definition alike (d d' : vecvoid) : Prop :=
  vv_blk d' = vv_blk d /\ vv_len d' = vv_len d /\ vv_cap d' = vv_cap d /\ vv_elem d' = vv_elem d.

Lemma alike_sh t d d' : alike d d' -> Sh t d -> Sh t d' /\ vv_own d' = vv_own d.
Proof.
  intros (H1 & H2 & H3 & H4) Hs. split.
  - split; try apply Hs; congruence || (rewrite ?H1, ?H2, ?H3, ?H4; apply Hs).
  - unfold vv_own. now rewrite H1, H3, H4.
Qed.

Definition in_place {A} (b : veccopy V) (r : outcome A * veccopy V) : Prop :=
  mild (fst r) /\ alike (vc_data b) (vc_data (snd r)).

Lemma alike_refl d : alike d d.
Proof. now repeat split. Qed.

Ltac alk := first [apply alike_refl | now repeat split].

Lemma in_place_fine {A B} t l (k : A -> B) b r w :
  in_place b r -> Sh t (vc_data b) -> Owns w (vv_own (vc_data b) ++ l) ->
  cfine t l (let '(o, b') := r in (let! a := o in Ret (k a), b', w)).
Proof.
  destruct r as [o b']. intros [Hm Ha] Hs HO. cbn [fst snd] in *.
  destruct (alike_sh t _ _ Ha Hs) as [Hs' Ho]. apply same_mild; [|exact Hs'|now rewrite Ho].
  apply mild_bind; [exact Hm|]. intros; exact I.
Qed.

Lemma mild_retype {A B} (o : outcome A) : (forall a, o <> Ret a) -> mild o -> mild (retype (B := B) o).
Proof. destruct o; cbn; auto. intros H _. now elim (H a). Qed.

Lemma update_in_place t f (b : veccopy V) : in_place b (vc_as_mut_slice_as G t f b).
Proof.
  unfold vc_as_mut_slice_as. destruct (vc_check t b); [|split; [exact I|alk]].
  pose proof (read_vals_mild G t (N.to_nat (vc_len b)) (vv_bytes (vc_data b))) as Hm.
  destruct (read_vals _ _ _ _); split; cbn [fst snd retype]; try exact Hm; try alk.
Qed.

Lemma set_as_in_place t i v (b : veccopy V) : in_place b (vc_set_as G t i v b).
Proof.
  unfold vc_set_as, assert_. destruct (i <? vc_len b); [|split; [exact I|alk]].
  destruct (vc_check t b); [|split; [exact I|alk]].
  destruct (_ <? _); [split; [discriminate|alk]|].
  match goal with |- context [read_val G t ?x] => pose proof (read_val_mild G t x) as Hm; destruct (read_val G t x) end;
    split; cbn [fst snd retype]; try exact Hm; alk.
Qed.

Lemma as_slice_mild (b : veccopy V) : mild (vc_as_slice P b).
Proof. unfold vc_as_slice. mild. Qed.

Lemma with_mut_in_place {A} (f : slicecopy V -> outcome A * slicecopy V) (b : veccopy V) :
  (forall s, mild (fst (f s))) -> in_place b (vc_with_mut_slice P f b).
Proof.
  intros Hf. unfold vc_with_mut_slice. pose proof (as_slice_mild b) as Hm.
  destruct (vc_as_slice P b) as [s|p|u|]; [|split; [exact Hm|alk]..].
  specialize (Hf s). destruct (f s) as [o s']. split; [exact Hf|]. now repeat split.
Qed.

Lemma sl_len_mild (s : slicecopy V) : mild (sl_len P s).
Proof. unfold sl_len. mild. Qed.
Lemma slm_as_slice_mild t (s : slicecopy V) : mild (slm_as_slice P G t s).
Proof. unfold slm_as_slice. apply mild_bind; [apply sl_len_mild|]. intros n. mild. Qed.
Lemma sl_as_slice_mild t (s : slicecopy V) : mild (sl_as_slice P G t s).
Proof. unfold sl_as_slice. destruct (sl_check t s); [|exact I]. apply mild_bind; [apply sl_len_mild|]. intros n. mild. Qed.

Lemma copy_slice_mild t vs (s : slicecopy V) : mild (fst (slm_copy_from_slice P G t vs s)).
Proof.
  unfold slm_copy_from_slice. pose proof (slm_as_slice_mild t s) as Hm.
  destruct (slm_as_slice P G t s) as [[xs|]|p|u|]; try exact Hm; try exact I.
  destruct (_ =? _); exact I.
Qed.

Lemma rot_mild_l k (s : slicecopy V) : mild (fst (slm_rotate_left P k s)).
Proof.
  unfold slm_rotate_left. pose proof (umul_mild P k (sl_element_size s)) as Hm.
  destruct (umul P k (sl_element_size s)); try exact Hm. destruct (_ <=? _); exact I.
Qed.
Lemma rot_mild_r k (s : slicecopy V) : mild (fst (slm_rotate_right P k s)).
Proof.
  unfold slm_rotate_right. pose proof (umul_mild P k (sl_element_size s)) as Hm.
  destruct (umul P k (sl_element_size s)); try exact Hm. destruct (_ <=? _); exact I.
Qed.
Lemma swap_mild i j (s : slicecopy V) : mild (fst (slm_swap P i j s)).
Proof.
  unfold slm_swap. destruct (i =? j); [exact I|].
  match goal with |- mild (fst (match ?o with _ => _ end)) => assert (Hm : mild o); [|destruct o; exact Hm] end.
  repeat first [apply index_byte_range_mild | progress mild].
Qed.

Lemma cm_copy_mild {U} (m : copy_mut V) (r : copy_ref U) : mild (cm_copy m r).
Proof. unfold cm_copy, bytes_copy_from_slice. mild. Qed.

Lemma get_mut_copy_in_place {U} i (r : copy_ref U) (b : veccopy V) :
  in_place b (vc_get_mut_copy P i r b).
Proof.
  unfold vc_get_mut_copy.
  assert (Hm : mild (vc_get_mut P i b)) by (unfold vc_get_mut; mild).
  destruct (vc_get_mut P i b) as [[off m]|p|u|]; [|split; [exact Hm|alk]..].
  pose proof (cm_copy_mild m r) as Hc. destruct (cm_copy m r) as [[m'|]|p|u|];
    split; try exact Hc; try alk; exact I.
Qed.

Lemma copy_each_mild {U} cs (r : copy_ref U) : mild (copy_each (V := V) cs r).
Proof.
  induction cs as [|m cs IH]; cbn [copy_each]; [exact I|].
  apply mild_bind; [apply cm_copy_mild|]. intros om. apply mild_bind; [exact IH|]. intros; exact I.
Qed.

Lemma iter_mut_in_place {U} (r : copy_ref U) (b : veccopy V) : in_place b (vc_iter_mut_copy P r b).
Proof.
  unfold vc_iter_mut_copy.
  assert (Hm : mild (vv_byte_chunks_mut P (vc_data b))) by (unfold vv_byte_chunks_mut; mild).
  destruct (vv_byte_chunks_mut P (vc_data b)) as [cs|p|u|]; [|split; [exact Hm|alk]..].
  match goal with |- context [copy_each ?c r] => pose proof (copy_each_mild c r) as Hc; destruct (copy_each c r) end;
    split; try exact Hc; alk.
Qed.

Lemma cr_downcast_mild t (r : copy_ref V) : mild (cr_downcast G t r).
Proof. unfold cr_downcast, from_bytes. mild. Qed.
Lemma downcast_all_mild t (rs : list (copy_ref V)) : mild (downcast_all G t rs).
Proof.
  induction rs as [|r rs IH]; cbn [downcast_all]; [exact I|].
  apply mild_bind; [apply cr_downcast_mild|]. intros [v|]; [|exact I].
  apply mild_bind; [exact IH|]. intros [vs|]; exact I.
Qed.

(** [copy_into_vec]: the vector made is read and dropped. *)
Lemma copy_into_vec_sh t t' (b : veccopy V) w l :
  t_copy (G t') = true -> Sh t (vc_data b) -> Owns w (vv_own (vc_data b) ++ l) ->
  cfine t l (run_call P G build (SCopyIntoVec t') b w).
Proof.
  intros Hc' Hs HO. cbn [run_call]. unfold vc_copy_into_vec, vc_append_copy_to_vec.
  assert (Hm : mild (vc_as_slice_as G t' b)) by (unfold vc_as_slice_as; mild).
  destruct (vc_as_slice_as G t' b) as [[xs|]|p|u|] eqn:E.
  - assert (t' = t) as ->.
    { unfold vc_as_slice_as in E. destruct (vc_check t' b) eqn:Ec; [|discriminate].
      now apply (sh_check t) in Ec. }
    set (sz := t_size (G t)) in *. set (al := t_align (G t)) in *.
    pose proof (sh_sized _ _ Hs) as Hsz. fold sz in Hsz.
    assert (Hk0 : svec_ok sz al svec_nil).
    { split; cbn [svec_nil v_blk v_len v_cap]; try lia. intros H. now elim H. }
    destruct (v_reserve_fine sz al (vc_len b) svec_nil w (vv_own (vc_data b) ++ l) Hsz Hk0 HO) as [H1 _].
    destruct (v_reserve sz al (vc_len b) svec_nil w) as [[o v1] w1].
    destruct o as [[]|p|u|]; cbn [vfine0] in H1; cbn [retype].
    + destruct H1 as [H1 HO1].
      destruct (v_reserve_fine sz al (lenN xs) v1 w1 _ Hsz H1 HO1) as [H2 H3].
      destruct (v_reserve sz al (lenN xs) v1 w1) as [[o v2] w2].
      destruct o as [[]|p|u|]; cbn [vfine0] in H2; cbn [retype].
      * destruct H2 as [H2 HO2]. destruct H3 as [H3 H4].
        set (vec := SVec (v_blk v2) (v_len v2 + lenN xs) (v_cap v2) (v_bytes v2 ++ encs G t xs)).
        assert (Hk : svec_ok sz al vec).
        { destruct H2. split; cbn [vec v_blk v_len v_cap]; auto. now rewrite H3. }
        pose proof (vec_drop_sh t vec w2 _ Hc' Hk HO2) as Hd.
        pose proof (read_vals_mild G t (N.to_nat (v_len vec)) (v_bytes vec)) as Hr.
        fold (vec_elems G t vec) in Hr.
        destruct (vec_elems G t vec) as [vs|p|u|] eqn:Ev; cbn [retype].
        -- destruct (vec_drop G t vec w2) as [[x|p|u|] w3]; try contradiction; cbn [obind].
           ++ now apply same_fine.
           ++ exact Hd.
        -- unfold vec_drop in Hd. rewrite Ev in Hd. contradiction.
        -- exact Hr.
        -- exact Hr.
      * destruct H2 as [H2 HO2]. pose proof (vec_drop_sh t v2 w2 _ Hc' H2 HO2) as Hd.
        destruct (vec_drop G t v2 w2) as [[x|p'|u|] w3]; try contradiction; cbn [unwind retype].
        -- now apply same_panic.
        -- exact Hd.
      * exact H2.
      * exact H2.
    + destruct H1 as [H1 HO1]. pose proof (vec_drop_sh t v1 w1 _ Hc' H1 HO1) as Hd.
      destruct (vec_drop G t v1 w1) as [[x|p'|u|] w3]; try contradiction; cbn [unwind retype].
      * now apply same_panic.
      * exact Hd.
    + exact H1.
    + exact H1.
  - rewrite vec_drop_nil. cbn [obind]. now apply same_fine.
  - rewrite vec_drop_nil. cbn [unwind retype]. now apply same_panic.
  - exact Hm.
  - exact Hm.
Qed.

(** ** One call *)

Lemma run_call_sh c t (b : veccopy V) w l :
  call_typed G c -> Sh t (vc_data b) -> Owns w (vv_own (vc_data b) ++ l) ->
  cfine t l (run_call P G build c b w).
Proof.
  intros Hty Hs HO.
  assert (Hpure : forall o : outcome obs, mild o -> cfine t l (pure o b w)).
  { intros o Ho. now apply same_mild. }
  assert (Hplace : forall A (k : A -> obs) r, in_place b r -> cfine t l (noworld k r w)).
  { intros A k r Hr. now apply (in_place_fine t l k b r w). }
  assert (Hfull : forall A (k : A -> obs) r, cfine t l r -> cfine t l (full k r)).
  { intros A k r Hr. now apply (cfine_map t l r k). }
  destruct c; cbn [call_typed] in Hty; cbn [run_call];
    try exact (copy_into_vec_sh t _ b w l Hty Hs HO).
  - apply Hpure. exact I.
  - apply Hpure. exact I.
  - apply Hpure. exact I.
  - apply Hpure. exact I.
  - apply Hfull. apply on_data_fine. now apply vv_reserve_sh.
  - apply Hfull. apply on_data_fine. now apply vv_clear_sh.
  - apply Hfull. now apply vc_push_as_sh.
  - apply Hfull. now apply vc_resize_sh.
  - apply Hplace. apply update_in_place.
  - apply Hplace. apply update_in_place.
  - apply Hplace. apply with_mut_in_place. intros s. apply copy_slice_mild.
  - apply Hpure. unfold vc_as_slice_as. mild.
  - apply Hpure. unfold vc_get_as. mild.
  - apply Hplace. apply set_as_in_place.
  - apply Hfull. apply on_data_fine. now apply vv_rotate_left_sh.
  - apply Hfull. apply on_data_fine. now apply vv_rotate_right_sh.
  - apply Hpure. apply mild_bind; [unfold vc_get_ref; mild|]. intros r.
    apply mild_bind; [apply cr_downcast_mild|]. intros o. exact I.
  - apply Hplace. apply get_mut_copy_in_place.
  - apply Hpure. apply mild_bind; [unfold vc_iter, vv_byte_chunks, vv_byte_slice; mild|]. intros rs.
    apply mild_bind; [apply downcast_all_mild|]. intros o. exact I.
  - apply Hplace. apply iter_mut_in_place.
  - apply Hfull. now apply vc_push_sh.
  - apply Hfull. now apply vc_extend_sh.
  - apply Hplace. apply with_mut_in_place. intros s. apply swap_mild.
  - apply Hplace. apply with_mut_in_place. intros s. apply rot_mild_l.
  - apply Hplace. apply with_mut_in_place. intros s. apply rot_mild_r.
  - apply Hpure. apply mild_bind; [apply as_slice_mild|]. intros s.
    apply mild_bind; [unfold sl_subslice, scale_range, index_with, range_bounds; mild|]. intros p.
    apply mild_bind; [apply sl_as_slice_mild|]. intros o. exact I.
  - apply Hpure. apply mild_bind; [apply as_slice_mild|]. intros s.
    apply mild_bind; [unfold sl_split_at; mild|]. intros p.
    apply mild_bind; [apply sl_as_slice_mild|]. intros o1.
    apply mild_bind; [apply sl_as_slice_mild|]. intros o2. exact I.
Qed.

(** ** Programs *)

Definition sslot (s : option (veccopy V)) : Prop :=
  match s with
  | None => True
  | Some b => (exists t, Sh t (vc_data b)) \/ Poisoned (vc_data b)
  end.
Definition sinv (st : cstate (V := V)) (leak : list block) : Prop :=
  Forall sslot (c_store st) /\ Owns (c_world st) (owned_blocks st ++ leak).

(** What a step may do: blocks are lost only by a panic. *)
Definition sfine {A} (leak : list block) (r : outcome A * cstate (V := V)) : Prop :=
  let '(o, st) := r in
  match o with
  | Ret _ => sinv st leak
  | Panic _ => exists leak', sinv st (leak' ++ leak)
  | UB u => u <> UbDealloc
  | Abort => False
  end.

Lemma sinv_out st leak h b :
  sinv st leak -> get st h = Some b ->
  exists rest, Owns (c_world st) (vv_own (vc_data b) ++ rest ++ leak) /\
    (forall w' s' leak', sslot s' -> Owns w' (slot_blocks s' ++ rest ++ leak' ++ leak) ->
       sinv (CState (list_set (c_store st) h s') w') (leak' ++ leak)).
Proof.
  intros [HF HO] Hg. apply get_some in Hg.
  destruct (flat_map_set slot_blocks (c_store st) h (Some b) Hg) as (rest & H1 & H2).
  exists rest. split.
  - eapply Owns_perm; [|exact HO]. unfold owned_blocks. fold (@slot_blocks V). rewrite H1.
    cbn [slot_blocks]. now rewrite <- app_assoc.
  - intros w' s' leak' Hs HO'. split; [now apply Forall_set|]. cbn [c_world c_store].
    eapply Owns_perm; [|exact HO']. unfold owned_blocks. cbn [c_store]. fold (@slot_blocks V).
    rewrite H2. now rewrite <- app_assoc.
Qed.

Lemma sslot_get st leak h b :
  sinv st leak -> get st h = Some b -> (exists t, Sh t (vc_data b)) \/ Poisoned (vc_data b).
Proof.
  intros [HF _] Hg. apply get_some in Hg. rewrite Forall_forall in HF.
  apply (HF (Some b)). now apply nth_error_In in Hg.
Qed.

Lemma new_buf_fine st leak (r : outcome (veccopy V) * world) :
  sinv st leak ->
  match r with
  | (Ret b, w') => (exists t, Sh t (vc_data b)) /\ Owns w' (vv_own (vc_data b) ++ owned_blocks st ++ leak)
  | (Panic p, w') => exists leak', Owns w' (leak' ++ owned_blocks st ++ leak)
  | (UB u, _) => u <> UbDealloc
  | (Abort, _) => False
  end ->
  sfine leak (new_buf r st).
Proof.
  intros [HF HO] H. destruct r as [[b|p|u|] w']; cbn [new_buf retype sfine].
  - destruct H as [Hs HO']. split; cbn [c_store c_world].
    + apply Forall_app. split; [exact HF|]. constructor; [now left|constructor].
    + eapply Owns_perm; [|exact HO']. unfold owned_blocks. cbn [c_store]. rewrite flat_map_app. cbn [flat_map].
      rewrite app_nil_r, buf_block_own. rewrite app_assoc. apply Permutation_app_tail. apply Permutation_app_comm.
  - destruct H as (leak' & HO'). exists leak'. split; [exact HF|]. cbn [c_world].
    eapply Owns_perm; [|exact HO']. unfold owned_blocks. cbn [c_store]. apply Permutation_app_swap_app.
  - exact H.
  - exact H.
Qed.

Lemma run_step_fine s st leak :
  sinv st leak -> step_typed G s -> sfine leak (run_step P G build s st).
Proof.
  intros HI Hty. assert (HO : Owns (c_world st) (owned_blocks st ++ leak)) by apply HI.
  assert (Hinv : forall r : report, sfine leak (Ret r, st)) by (intros r; exact HI).
  destruct s as [c|h|h|h|h t|h h'|h c]; cbn [run_step step_typed] in *.
  - (* MNew *)
    apply new_buf_fine; [exact HI|].
    pose proof (run_ctor_post P G HG build c (c_world st) _ Hty HO) as HC.
    inversion HC as [t xs d w' Hlc Hc HR HO' HE|p w' HO' Hk HE|p w' lk hint vals Hc HO' HE].
    + split; [|exact HO']. exists t. now apply (rep_sh t _ xs).
    + exists []. exact HO'.
    + eauto.
  - (* MWithTypeFrom *)
    destruct (get st h) as [b|] eqn:Hg; [|apply Hinv]. apply new_buf_fine; [exact HI|].
    destruct (sslot_get st leak h b HI Hg) as [(t & Hs)|HP].
    + unfold meta_of_vec. rewrite (sh_elem _ _ Hs).
      destruct (vc_with_type_from_rep P G HG t (vc_vtable b) (c_world st) _ (sh_sized _ _ Hs) HO)
        as (d & w' & -> & HR' & _ & HO' & _).
      split; [|exact HO']. exists t. apply (rep_sh t _ [] HR'). apply Hs.
    + rewrite (veccopy_eta b), (poisoned_shape _ HP).
      destruct (vc_with_type_from_pois P (vv_len (vc_data b)) (vv_cap (vc_data b)) (vc_vtable b) (c_world st)) as [p ->].
      exists []. exact HO.
  - (* MClone *)
    destruct (get st h) as [b|] eqn:Hg; [|apply Hinv]. apply new_buf_fine; [exact HI|].
    destruct (sslot_get st leak h b HI Hg) as [(t & Hs)|HP].
    + unfold vc_clone. pose proof (vv_clone_sh t (vc_data b) (c_world st) _ Hs HO) as H.
      destruct (vv_clone P (vc_data b) (c_world st)) as [[d|p|u|] w']; cbn [retype]; try exact H.
      destruct H as [H1 H2]. split; [|exact H2]. eauto.
    + rewrite (veccopy_eta b), (poisoned_shape _ HP).
      destruct (vc_clone_pois P (vv_len (vc_data b)) (vv_cap (vc_data b)) (vc_vtable b) (c_world st)) as [p ->].
      exists []. exact HO.
  - (* MDrop *)
    destruct (get st h) as [b|] eqn:Hg; [|apply Hinv].
    destruct (sinv_out st leak h b HI Hg) as (rest & HO1 & Hback). unfold vc_drop.
    destruct (sslot_get st leak h b HI Hg) as [(t & Hs)|HP].
    + destruct (vv_drop_sh t (vc_data b) (c_world st) _ Hs HO1) as (w' & -> & HO'). cbn [obind].
      apply (Hback w' None []); [exact I|exact HO'].
    + rewrite vv_drop_poisoned by exact HP. cbn [obind]. apply (Hback _ None []); [exact I|].
      rewrite vv_own_poisoned in HO1 by exact HP. exact HO1.
  - (* MIntoVec *)
    destruct (get st h) as [b|] eqn:Hg; [|apply Hinv].
    destruct (sinv_out st leak h b HI Hg) as (rest & HO1 & Hback).
    destruct (sslot_get st leak h b HI Hg) as [(ty & Hs)|HP].
    + unfold vc_into_vec. destruct (vc_check t b) eqn:E.
      * apply (sh_check ty) in E; [|exact Hs]. subst t.
        unfold into_vec_unchecked. rewrite (sh_elem _ _ Hs), num_bytes_new by assumption.
        cbn [elem_new e_alignment]. rewrite !N.eqb_refl.
        assert (Hd : debug_assert P true = Ret tt) by (unfold debug_assert; now destruct (debug_assertions P)).
        rewrite Hd. cbn [obind].
        rewrite <- (own_sized ty _ Hs) in HO1.
        pose proof (vec_drop_sh ty _ (c_world st) _ (sh_copy _ _ Hs) (sized_ok ty _ Hs) HO1) as Hv.
        set (vec := SVec _ _ _ _) in *.
        pose proof (read_vals_mild G ty (N.to_nat (v_len vec)) (v_bytes vec)) as Hr.
        fold (vec_elems G ty vec) in Hr.
        destruct (vec_elems G ty vec) as [vs|p|u|] eqn:Ev; cbn [retype].
        -- destruct (vec_drop G ty vec (c_world st)) as [[x|p|u|] w3]; try contradiction; cbn [obind].
           ++ apply (Hback w3 None []); [exact I|exact Hv].
           ++ exact Hv.
        -- now elim (read_vals_no_panic ty _ _ p Ev).
        -- exact Hr.
        -- exact Hr.
      * unfold vc_drop. destruct (vv_drop_sh ty (vc_data b) (c_world st) _ Hs HO1) as (w' & -> & HO').
        cbn [obind]. apply (Hback w' None []); [exact I|exact HO'].
    + rewrite vv_own_poisoned in HO1 by exact HP.
      rewrite (veccopy_eta b), (poisoned_shape _ HP).
      destruct (into_vec_pois P G HG t (vv_len (vc_data b)) (vv_cap (vc_data b)) (vc_vtable b) (c_world st))
        as ([vec|] & -> & Ho).
      * destruct Ho as (vs & -> & ->). cbn [obind]. apply (Hback _ None []); [exact I|exact HO1].
      * apply (Hback _ None []); [exact I|exact HO1].
  - (* MAppend *)
    destruct (get st h) as [b|] eqn:Hg; [|apply Hinv].
    destruct (get st h') as [b'|] eqn:Hg'; [|apply Hinv].
    destruct (h =? h')%nat eqn:Eh; [apply Hinv|].
    apply Nat.eqb_neq in Eh as Hne. pose proof Hg as Hn. pose proof Hg' as Hn'.
    apply get_some in Hn. apply get_some in Hn'.
    destruct (flat_map_set2 slot_blocks (c_store st) h h' _ _ Hn Hn' Hne) as (rest & H1 & H2).
    assert (HO1 : Owns (c_world st) (vv_own (vc_data b) ++ vv_own (vc_data b') ++ rest ++ leak)).
    { eapply Owns_perm; [|exact HO]. unfold owned_blocks. fold (@slot_blocks V). rewrite H1.
      cbn [slot_blocks]. now rewrite <- !app_assoc. }
    assert (Hback : forall w' b1 b1' leak', sslot (Some b1) -> sslot (Some b1') ->
      Owns w' (vv_own (vc_data b1) ++ vv_own (vc_data b1') ++ leak' ++ rest ++ leak) ->
      sinv (CState (list_set (list_set (c_store st) h (Some b1)) h' (Some b1')) w') (leak' ++ leak)).
    { intros w' b1 b1' leak' Hs Hs' HOx. split.
      - cbn [c_store]. apply Forall_set; [apply Forall_set; [apply HI|exact Hs]|exact Hs'].
      - cbn [c_world]. eapply Owns_perm; [|exact HOx]. unfold owned_blocks. cbn [c_store].
        fold (@slot_blocks V). rewrite (H2 (Some b1) (Some b1')). cbn [slot_blocks]. rewrite <- !app_assoc.
        do 2 apply Permutation_app_head. apply Permutation_app_swap_app. }
    assert (Hsame : list_set (list_set (c_store st) h (Some b)) h' (Some b') = c_store st).
    { rewrite (list_set_same _ _ _ Hn). now apply list_set_same. }
    assert (Hst : forall a : bool, sfine leak (let! a0 := Ret a in Ret (RObs (OBool a0)),
              CState (list_set (list_set (c_store st) h (Some b)) h' (Some b')) (c_world st))).
    { intros a. rewrite Hsame. exact HI. }
    destruct (sslot_get st leak h b HI Hg) as [(t & Hs)|HP];
      destruct (sslot_get st leak h' b' HI Hg') as [(t' & Hs')|HP'].
    + unfold vc_append. rewrite (sh_type _ _ Hs), (sh_type _ _ Hs').
      destruct (t' =? t) eqn:Et; [|apply Hst]. apply N.eqb_eq in Et as ->.
      pose proof (vv_append_sh t _ _ (c_world st) _ Hs Hs' HO1) as HA.
      destruct (vv_append P (vc_data b) (vc_data b') (c_world st)) as [[[o d] d2] w'].
      assert (Hsl : forall d vt, shp t d -> sslot (Some (VecCopy d vt))).
      { intros d0 vt [H|H]; [left; exists t; exact H|right; exact H]. }
      destruct o as [x|p|u|]; cbn [obind]; cbv beta iota in HA.
      * destruct HA as (Ha & Hb & Hc). apply (Hback w' (VecCopy d _) (VecCopy d2 _) []); auto. apply Hsl. now left.
      * destruct HA as (Ha & Hb & lk & Hc). exists lk. apply (Hback w' (VecCopy d _) (VecCopy d2 _) lk); auto.
      * exact HA.
      * exact HA.
    + unfold vc_append, vc_element_type_id at 1. rewrite (sh_type _ _ Hs), (po_elem _ HP'). cbn [e_type_id].
      destruct (unit_id =? t) eqn:Et; [|apply Hst].
      apply N.eqb_eq in Et. subst t. now elim (rep_not_unit G HG _ _ _ (sh_rep _ _ Hs)).
    + unfold vc_append, vc_element_type_id at 2. rewrite (sh_type _ _ Hs'), (po_elem _ HP). cbn [e_type_id].
      destruct (t' =? unit_id) eqn:Et; [|apply Hst].
      apply N.eqb_eq in Et. subst t'. now elim (rep_not_unit G HG _ _ _ (sh_rep _ _ Hs')).
    + rewrite (veccopy_eta b), (veccopy_eta b'), (poisoned_shape _ HP), (poisoned_shape _ HP').
      destruct (vc_append_pois P (vv_len (vc_data b)) (vv_cap (vc_data b)) (vv_len (vc_data b'))
                  (vv_cap (vc_data b')) (vc_vtable b) (vc_vtable b') (c_world st)) as [p ->].
      cbn [obind]. exists [].
      rewrite (vv_own_poisoned _ HP), (vv_own_poisoned _ HP') in HO1.
      apply (Hback (c_world st) (VecCopy vv_default (vc_vtable b)) (VecCopy vv_default (vc_vtable b')) []);
        [right; apply vv_default_poisoned|right; apply vv_default_poisoned|exact HO1].
  - (* MCall *)
    destruct (get st h) as [b|] eqn:Hg; [|apply Hinv].
    destruct (sinv_out st leak h b HI Hg) as (rest & HO1 & Hback).
    destruct (sslot_get st leak h b HI Hg) as [(t & Hs)|HP].
    + pose proof (run_call_sh c t b (c_world st) _ Hty Hs HO1) as HC.
      destruct (run_call P G build c b (c_world st)) as [[[a|p|u|] b'] w']; cbn [obind]; cbn [cfine dfine] in HC.
      * destruct HC as [H1 H2]. apply (Hback w' (Some b') []); [left; eauto|exact H2].
      * destruct HC as (H1 & lk & H2). exists lk. apply (Hback w' (Some b') lk).
        -- destruct H1; [left; eauto|now right].
        -- cbn [slot_blocks]. rewrite buf_block_own. eapply Owns_perm; [|exact H2].
           apply Permutation_app_head. apply Permutation_app_swap_app.
      * exact HC.
      * exact HC.
    + rewrite vv_own_poisoned in HO1 by exact HP.
      assert (Hcase : (exists t v, c = SPush t v /\ t_size (G t) = 0) \/
                      (forall t v, c = SPush t v -> t_size (G t) <> 0)).
      { destruct c; try (right; discriminate). destruct (N.eq_dec (t_size (G t)) 0) as [E|E]; [left; eauto|].
        right. intros t0 v0 [= <- <-]. exact E. }
      rewrite (veccopy_eta b), (poisoned_shape _ HP).
      destruct Hcase as [(t & v & -> & Ht)|Hcase].
      * cbn [run_call]. unfold vc_push, mk_ref, copy_ref_new, cr_size. cbn [cr_bytes cr_type_id].
        rewrite enc_nil by exact Ht. change (vc_element_size _) with 0. change (lenN []) with 0.
        cbn [N.eqb]. destruct (t =? _); unfold full.
        -- unfold on_data, vv_push, dispatch. cbn [vc_data pois_vec vv_elem e_alignment].
           change (eval_align 1) with (Some 1). unfold apply_aligned_unchecked, aligned_vec_unchecked.
           cbn [vv_elem pois_vec e_alignment e_size vv_len vv_cap]. rewrite N.eqb_refl.
           assert (Hd : debug_assert P true = Ret tt) by (unfold debug_assert; now destruct (debug_assertions P)).
           rewrite Hd, !umul_0_r. cbn [obind lift0]. change (lenN [] <? 1) with true. cbn. discriminate.
        -- cbn [obind]. apply (Hback _ (Some _) []); [right; apply pois_vec_poisoned|]. exact HO1.
      * pose proof (vc_call_pois_any P G HG build c (vv_len (vc_data b)) (vv_cap (vc_data b)) (vc_vtable b)
                      (c_world st) Hty Hcase) as HC.
        inversion HC as [o n k w' Hs HO' HE]. destruct o as [a|p|u|]; try contradiction; cbn [obind].
        -- apply (Hback w' (Some _) []); [right; apply pois_vec_poisoned|]. apply HO'. exact HO1.
        -- exists []. apply (Hback w' (Some _) []); [right; apply pois_vec_poisoned|]. apply HO'. exact HO1.
Qed.

(** A whole program: no wrong deallocation and no abort, and while the behaviour is defined the
    live blocks are those of the buffers and those lost by panics. *)
Lemma run_fine prog st leak :
  sinv st leak -> Forall (step_typed G) prog ->
  Forall mild (fst (run P G build prog st)) /\
  ((forall u, ~ In (UB u) (fst (run P G build prog st))) ->
   exists leak', sinv (snd (run P G build prog st)) (leak' ++ leak) /\
     (Forall (fun o => exists r, o = Ret r) (fst (run P G build prog st)) -> leak' = [])).
Proof.
  revert st leak. induction prog as [|s prog IH]; intros st leak HI Hty.
  - cbn. split; [constructor|]. intros _. exists []. now split.
  - inversion Hty as [|s' prog' Hs Hprog]; subst.
    pose proof (run_step_fine s st leak HI Hs) as HF. cbn [run].
    destruct (run_step P G build s st) as [[r|p|u|] st1]; cbn [sfine] in HF.
    + destruct (IH st1 leak HF Hprog) as [H1 H2].
      destruct (run P G build prog st1) as [rs st2]. cbn [fst snd] in *. split; [constructor; [exact I|exact H1]|].
      intros Hu. destruct H2 as (leak' & H2 & H3); [intros u Hin; apply (Hu u); now right|].
      exists leak'. split; [exact H2|]. intros HR. apply H3. now inversion HR.
    + destruct HF as (lk & HF). destruct (IH st1 _ HF Hprog) as [H1 H2].
      destruct (run P G build prog st1) as [rs st2]. cbn [fst snd] in *. split; [constructor; [exact I|exact H1]|].
      intros Hu. destruct H2 as (leak' & H2 & H3); [intros u Hin; apply (Hu u); now right|].
      exists (leak' ++ lk). rewrite <- app_assoc. split; [exact H2|]. intros HR. inversion HR as [|? ? [r Hr]]. discriminate.
    + cbn [fst snd]. split; [constructor; [exact HF|constructor]|]. intros Hu. elim (Hu u). now left.
    + contradiction.
Qed.

End Ledger.
