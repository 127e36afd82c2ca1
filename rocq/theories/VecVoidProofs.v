(** * Specifications of StdVec.v and VecVoid.v operations. *)

From Verif Require Export TypesProofs VecVoid.

(** ** Arithmetic of layouts *)

Lemma legal_align_pos a : legal_align a -> 1 <= a.
Proof. intros (k & _ & ->). assert (2 ^ k <> 0) by (apply N.pow_nonzero; lia). lia. Qed.

Lemma wf_align_pos G t : wf_tenv G -> 1 <= t_align (G t).
Proof. intros H. apply legal_align_pos. apply (wf_types G H t). Qed.

Lemma size_split G t :
  wf_tenv G -> t_size (G t) = t_size (G t) / t_align (G t) * t_align (G t).
Proof.
  intros H. pose proof (wf_align_pos G t H). pose proof (wf_size_align _ (wf_types G H t)) as Hm.
  rewrite N.mul_comm. apply N.div_exact in Hm; lia.
Qed.

Lemma max_alloc_le a : max_alloc a <= isize_max.
Proof. unfold max_alloc. lia. Qed.

Lemma num_bytes_new G t : wf_tenv G -> num_bytes (elem_new G t) = t_size (G t).
Proof. intros H. unfold num_bytes. cbn. symmetry. now apply size_split. Qed.

(** Every alignment Rust allows is one of thirty numbers. *)
Lemma legal_align_enum a : legal_align a <-> In a aligned_types.
Proof.
  split.
  - intros (k & Hk & ->).
    assert (HI : In (2 ^ k) (map (fun i => 2 ^ N.of_nat i) (seq 0 30))).
    { apply in_map_iff. exists (N.to_nat k). split; [now rewrite N2Nat.id|].
      apply in_seq. lia. }
    exact HI.
  - intros H. change aligned_types with (map (fun i => 2 ^ N.of_nat i) (seq 0 30)) in H.
    apply in_map_iff in H as (i & <- & Hi). apply in_seq in Hi.
    exists (N.of_nat i). split; [lia|reflexivity].
Qed.

Lemma eval_align_legal a : legal_align a -> eval_align a = Some a.
Proof.
  intros H. apply legal_align_enum in H. cbn in H.
  repeat (destruct H as [<-|H]; [reflexivity|]). easy.
Qed.

Lemma eval_align_limited_legal a :
  legal_align a -> a <= 8192 -> eval_align_limited a = Some a.
Proof.
  intros H Hle. apply legal_align_enum in H. cbn in H.
  repeat (destruct H as [<-|H]; [first [reflexivity|lia]|]).
  easy.
Qed.

Lemma eval_align_limited_big a :
  legal_align a -> 8192 < a -> eval_align_limited a = None.
Proof.
  intros H Hlt. apply legal_align_enum in H. cbn in H.
  repeat (destruct H as [<-|H]; [first [lia|reflexivity]|]).
  easy.
Qed.

(** ** std::vec::Vec *)

Record svec_ok (sz al : N) (v : svec) : Prop := {
  so_ptr : ptr_ok (v_blk v) (v_cap v * sz);
  so_len : v_len v <= v_cap v;
  so_max : v_cap v * sz <= max_alloc al
}.

Definition v_own (sz al : N) (v : svec) : list block := owned (v_blk v) (v_cap v * sz) al.

(** The capacity chosen by [grow_amortized]. *)
Definition grow_cap (sz add : N) (v : svec) : N :=
  N.max (min_non_zero_cap sz) (N.max (v_cap v * 2) (v_len v + add)).

Lemma v_capacity_sized sz v : sz <> 0 -> v_capacity sz v = v_cap v.
Proof. intros H. unfold v_capacity. apply N.eqb_neq in H. now rewrite H. Qed.

Lemma v_grow_spec sz al add v w l :
  sz <> 0 -> svec_ok sz al v -> Owns w (v_own sz al v ++ l) ->
  (exists b w',
     v_grow sz al add v w = (Ret tt, SVec b (v_len v) (grow_cap sz add v) (v_bytes v), w') /\
     grow_cap sz add v * sz <= max_alloc al /\ v_len v + add <= usize_max /\
     ptr_ok b (grow_cap sz add v * sz) /\
     Owns w' (owned b (grow_cap sz add v * sz) al ++ l) /\ w_trace w' = w_trace w) \/
  (v_grow sz al add v w = (Panic PCapacity, v, w) /\
   (usize_max < v_len v + add \/ max_alloc al < grow_cap sz add v * sz)).
Proof.
  intros Hz Hok HO. unfold v_grow, grow_cap. destruct (sz =? 0) eqn:E; [now apply N.eqb_eq in E|].
  destruct (usize_max <? v_len v + add) eqn:E1.
  { right. apply N.ltb_lt in E1. auto. }
  apply N.ltb_ge in E1.
  set (cap := N.max (min_non_zero_cap sz) (N.max (v_cap v * 2) (v_len v + add))).
  destruct (max_alloc al <? cap * sz) eqn:E2.
  { right. apply N.ltb_lt in E2. auto. }
  apply N.ltb_ge in E2. left.
  destruct (dealloc_owns (v_blk v) (v_cap v * sz) al w l) as (w1 & -> & HO1 & Ht1).
  { apply Hok. } { exact HO. }
  destruct (alloc_owns (cap * sz) al w1 l HO1) as (b & w2 & -> & HO2 & Hp & Ht2).
  exists b, w2. csplit; try assumption; try reflexivity. congruence.
Qed.

Lemma v_reserve_spec sz al add v w l :
  sz <> 0 -> svec_ok sz al v -> Owns w (v_own sz al v ++ l) ->
  (v_len v + add <= v_cap v /\ v_reserve sz al add v w = (Ret tt, v, w)) \/
  (v_cap v < v_len v + add /\
   ((exists b w',
     v_reserve sz al add v w = (Ret tt, SVec b (v_len v) (grow_cap sz add v) (v_bytes v), w') /\
     grow_cap sz add v * sz <= max_alloc al /\ v_len v + add <= usize_max /\
     ptr_ok b (grow_cap sz add v * sz) /\
     Owns w' (owned b (grow_cap sz add v * sz) al ++ l) /\ w_trace w' = w_trace w) \/
    (v_reserve sz al add v w = (Panic PCapacity, v, w) /\
     (usize_max < v_len v + add \/ max_alloc al < grow_cap sz add v * sz)))).
Proof.
  intros Hz Hok HO. unfold v_reserve. rewrite v_capacity_sized by exact Hz.
  pose proof (so_len _ _ _ Hok).
  destruct (v_cap v - v_len v <? add) eqn:E.
  - apply N.ltb_lt in E. right. split; [lia|]. now apply v_grow_spec.
  - apply N.ltb_ge in E. left. split; [lia|reflexivity].
Qed.

(** ** Representation *)

(** [Rep G t d xs]: the buffer [d] holds the values [xs] of type [t]. *)
Record Rep (G : tenv) (t : tyid) (d : vecvoid) (xs : list payload) : Prop := {
  rep_elem : vv_elem d = elem_new G t;
  rep_sized : t_size (G t) <> 0;
  rep_len : vv_len d = lenN xs;
  rep_bytes : vv_bytes d = encs G t xs;
  rep_cap : lenN xs <= vv_cap d;
  rep_cap1 : 1 <= vv_cap d;
  rep_max : vv_cap d * t_size (G t) <= max_alloc (t_align (G t));
  rep_blk : vv_blk d <> None
}.

(** The block a buffer owns. *)
Definition vv_own (d : vecvoid) : list block :=
  owned (vv_blk d) (vv_cap d * num_bytes (vv_elem d)) (e_alignment (vv_elem d)).

(** The state in which a panic inside an operation leaves a buffer. *)
Record Poisoned (d : vecvoid) : Prop := {
  po_blk : vv_blk d = None;
  po_elem : vv_elem d = ElemInfo unit_id 0 1;
  po_bytes : vv_bytes d = []
}.

Lemma vv_default_poisoned : Poisoned vv_default.
Proof. now split. Qed.

Lemma vv_own_poisoned d : Poisoned d -> vv_own d = [].
Proof. intros H. unfold vv_own. now rewrite (po_blk d H). Qed.

(** src/vec_void.rs:77-82: the default vector really is [from_vec(Vec::<()>::new())]. *)
Lemma vv_default_is_from_vec G w :
  wf_tenv G -> vv_from_vec G unit_id svec_nil w = (Ret vv_default, w).
Proof.
  intros H. unfold vv_from_vec, into_valid_vec, v_capacity, elem_new.
  rewrite (wf_unit_size G H), (wf_unit_align G H). reflexivity.
Qed.

Section Specs.
Context (P : profile) (G : tenv) (HG : wf_tenv G).

(** Chunks per element. *)
Definition chunks_of (t : tyid) : N := t_size (G t) / t_align (G t).

Lemma chunks_pos t : t_size (G t) <> 0 -> 1 <= chunks_of t.
Proof.
  intros H. pose proof (size_split G t HG) as E. unfold chunks_of.
  destruct (N.eq_dec (t_size (G t) / t_align (G t)) 0) as [E0|]; [|lia].
  rewrite E0 in E. lia.
Qed.

Lemma chunks_size t : t_size (G t) = chunks_of t * t_align (G t).
Proof. apply size_split, HG. Qed.

Lemma chunks_le_size t c : c * chunks_of t <= c * t_size (G t).
Proof. pose proof (chunks_size t). pose proof (wf_align_pos G t HG). nia. Qed.

Definition carrier (t : tyid) (d : vecvoid) : svec :=
  SVec (vv_blk d) (vv_len d * chunks_of t) (vv_cap d * chunks_of t) (vv_bytes d).

Lemma rep_own t d xs :
  Rep G t d xs ->
  vv_own d = owned (vv_blk d) (vv_cap d * t_size (G t)) (t_align (G t)).
Proof. intros H. unfold vv_own. rewrite (rep_elem _ _ _ _ H). now rewrite num_bytes_new. Qed.

Lemma rep_no_overflow t d xs :
  Rep G t d xs ->
  vv_len d * chunks_of t <= usize_max /\ vv_cap d * chunks_of t <= usize_max /\
  vv_len d * t_size (G t) <= isize_max.
Proof.
  intros H. pose proof (rep_max _ _ _ _ H). pose proof (max_alloc_le (t_align (G t))).
  pose proof (chunks_le_size t (vv_cap d)). pose proof isize_lt_usize.
  pose proof (rep_cap _ _ _ _ H). rewrite <- (rep_len _ _ _ _ H) in *.
  repeat split; nia.
Qed.

Lemma aligned_vec_rep t d xs :
  Rep G t d xs -> aligned_vec_unchecked P (t_align (G t)) d = Ret (carrier t d).
Proof.
  intros H. destruct (rep_no_overflow _ _ _ H) as (H1 & H2 & _).
  unfold aligned_vec_unchecked. rewrite (rep_elem _ _ _ _ H).
  cbn [e_alignment e_size elem_new]. fold (chunks_of t).
  rewrite !debug_assert_true by apply N.eqb_refl. cbn [obind].
  rewrite !umul_ok by assumption. reflexivity.
Qed.

Lemma carrier_own t d xs :
  Rep G t d xs -> v_own (t_align (G t)) (t_align (G t)) (carrier t d) = vv_own d.
Proof.
  intros H. rewrite (rep_own _ _ _ H). unfold v_own, carrier. cbn.
  rewrite <- N.mul_assoc, <- chunks_size. reflexivity.
Qed.

Lemma carrier_ok t d xs :
  Rep G t d xs -> svec_ok (t_align (G t)) (t_align (G t)) (carrier t d).
Proof.
  intros H. pose proof (rep_cap _ _ _ _ H). rewrite <- (rep_len _ _ _ _ H) in *. split; cbn.
  - intros _. apply H.
  - nia.
  - rewrite <- N.mul_assoc, <- chunks_size. apply H.
Qed.

Lemma from_vec_override_ok t v n c :
  t_size (G t) <> 0 -> v_len v = n * chunks_of t -> v_cap v = c * chunks_of t ->
  n <= c -> 1 <= c -> c * chunks_of t <= usize_max ->
  from_vec_override P (t_align (G t)) v (elem_new G t) =
  Ret (VecVoid (v_blk v) n c (elem_new G t) (v_bytes v)).
Proof.
  intros Hz Hl Hc Hn H1 Hm. pose proof (chunks_pos t Hz) as Hp.
  pose proof (wf_align_pos G t HG) as Ha.
  unfold from_vec_override. cbn [elem_new e_alignment e_size]. fold (chunks_of t).
  rewrite v_capacity_sized by lia. rewrite Hl, Hc, (N.div_same (t_align (G t))) by lia.
  rewrite assert_true by apply N.eqb_refl. cbn [obind].
  rewrite assert_true by (apply N.leb_le; nia). cbn [obind].
  rewrite !umul_ok by nia. cbn [obind]. rewrite !N.mul_1_r.
  unfold umod, udiv. destruct (chunks_of t =? 0) eqn:E; [apply N.eqb_eq in E; lia|].
  cbn [obind]. rewrite !N.mod_mul by lia. cbn [obind assert_ N.eqb].
  rewrite !N.div_mul by lia. reflexivity.
Qed.

Lemma dispatch_rep_with {A} ev t d xs (f : N -> svec -> world -> outcome A * svec * world) w :
  Rep G t d xs -> ev (t_align (G t)) = Some (t_align (G t)) ->
  dispatch ev P f d w =
  match f (t_align (G t)) (carrier t d) w with
  | (Ret a, v', w') =>
      match from_vec_override P (t_align (G t)) v' (elem_new G t) with
      | Ret self' => (Ret a, self', w')
      | o => (retype o, vv_default, w')
      end
  | (Panic p, v', w') =>
      let '(o, w'') := v_drop_nodrop (t_align (G t)) (t_align (G t)) v' w' in
      (unwind p o, vv_default, w'')
  | (o, _, w') => (retype o, vv_default, w')
  end.
Proof.
  intros H Hev. unfold dispatch. rewrite (rep_elem _ _ _ _ H). cbn [e_alignment elem_new].
  rewrite Hev.
  unfold apply_aligned_unchecked. rewrite (rep_elem _ _ _ _ H).
  rewrite (aligned_vec_rep _ _ _ H). unfold lift0.
  destruct (f _ _ _) as [[o v'] w']. destruct o; cbn [drop0]; try reflexivity.
  - destruct (from_vec_override _ _ _ _); reflexivity.
  - destruct (v_drop_nodrop _ _ _ _); reflexivity.
Qed.

Lemma dispatch_rep {A} t d xs (f : N -> svec -> world -> outcome A * svec * world) w :
  Rep G t d xs ->
  dispatch eval_align P f d w =
  match f (t_align (G t)) (carrier t d) w with
  | (Ret a, v', w') =>
      match from_vec_override P (t_align (G t)) v' (elem_new G t) with
      | Ret self' => (Ret a, self', w')
      | o => (retype o, vv_default, w')
      end
  | (Panic p, v', w') =>
      let '(o, w'') := v_drop_nodrop (t_align (G t)) (t_align (G t)) v' w' in
      (unwind p o, vv_default, w'')
  | (o, _, w') => (retype o, vv_default, w')
  end.
Proof.
  intros H. apply (dispatch_rep_with eval_align t d xs f w H).
  apply eval_align_legal, (wf_types G HG t).
Qed.

(** Dropping the carrier vector frees the block. *)
Lemma v_drop_ok sz al v w l :
  ptr_ok (v_blk v) (v_cap v * sz) -> Owns w (v_own sz al v ++ l) ->
  exists w', v_drop_nodrop sz al v w = (Ret tt, w') /\ Owns w' l /\ w_trace w' = w_trace w.
Proof. intros Hp HO. now apply dealloc_owns. Qed.

(** src/vec_void.rs:392-401 *)
Lemma vv_drop_rep t d xs w l :
  Rep G t d xs -> Owns w (vv_own d ++ l) ->
  exists w', vv_drop P d w = (Ret tt, w') /\ Owns w' l /\ w_trace w' = w_trace w.
Proof.
  intros H HO. unfold vv_drop. rewrite (rep_elem _ _ _ _ H). cbn [e_alignment elem_new].
  rewrite eval_align_legal by apply (wf_types G HG t).
  rewrite (aligned_vec_rep _ _ _ H). apply v_drop_ok.
  - apply (carrier_ok _ _ _ H).
  - now rewrite (carrier_own _ _ _ H).
Qed.

Lemma vv_drop_poisoned d w : Poisoned d -> vv_drop P d w = (Ret tt, w).
Proof.
  intros H. unfold vv_drop, aligned_vec_unchecked. rewrite (po_elem d H). cbn [e_alignment e_size].
  change (eval_align 1) with (Some 1). cbn iota beta.
  rewrite !debug_assert_true by apply N.eqb_refl. cbn [obind].
  unfold umul. rewrite !N.mul_0_r. cbn. reflexivity.
Qed.

(** ** Operations *)

Lemma vv_clear_rep t d xs w l :
  Rep G t d xs -> Owns w (vv_own d ++ l) ->
  exists d', vv_clear P d w = (Ret tt, d', w) /\ Rep G t d' [] /\
             vv_cap d' = vv_cap d /\ vv_blk d' = vv_blk d /\ Owns w (vv_own d' ++ l).
Proof.
  intros H HO. unfold vv_clear. rewrite (dispatch_rep t d xs) by exact H. unfold v_clear.
  destruct (rep_no_overflow _ _ _ H) as (H1 & H2 & _).
  rewrite (from_vec_override_ok t _ 0 (vv_cap d)); cbn; try lia; try apply H; try assumption.
  eexists. split; [reflexivity|]. split; [|split; [reflexivity|split; [reflexivity|]]].
  - split; cbn; try reflexivity; try apply H. unfold lenN; cbn; lia.
  - rewrite (rep_own _ _ _ H) in HO. unfold vv_own. cbn.
    rewrite num_bytes_new by exact HG. exact HO.
Qed.

(** The one layout and capacity at which growing to hold [n] elements picks a capacity that is not
    a multiple of the element size: 3-byte elements of alignment 1, capacity 1, growing to 2. *)
Definition bad_growth (t : tyid) (cap n : N) : Prop :=
  t_size (G t) = 3 /\ t_align (G t) = 1 /\ cap = 1 /\ n = 2.

Lemma min_non_zero_cap_cases a :
  (a = 1 /\ min_non_zero_cap a = 8) \/ (a <> 1 /\ a <= 1024 /\ min_non_zero_cap a = 4) \/
  (1024 < a /\ min_non_zero_cap a = 1).
Proof.
  unfold min_non_zero_cap. destruct (a =? 1) eqn:E.
  - apply N.eqb_eq in E. auto.
  - apply N.eqb_neq in E. destruct (a <=? 1024) eqn:E2.
    + apply N.leb_le in E2. auto.
    + apply N.leb_gt in E2. auto.
Qed.

(** Capacity after growing in terms of elements. *)
Lemma grow_cap_multiple t d xs n :
  Rep G t d xs -> vv_cap d < n ->
  (exists c, N.max (min_non_zero_cap (t_align (G t)))
                   (N.max (vv_cap d * chunks_of t * 2) (n * chunks_of t)) = c * chunks_of t /\
             vv_cap d <= c /\ n <= c) \/
  (bad_growth t (vv_cap d) n /\
   N.max (min_non_zero_cap (t_align (G t)))
         (N.max (vv_cap d * chunks_of t * 2) (n * chunks_of t)) = 8).
Proof.
  intros H Hn. pose proof (chunks_pos t (rep_sized _ _ _ _ H)) as Hp.
  pose proof (rep_cap1 _ _ _ _ H) as H1. pose proof (chunks_size t) as Hs.
  set (k := chunks_of t) in *.
  set (m := min_non_zero_cap (t_align (G t))).
  set (b := N.max (vv_cap d * k * 2) (n * k)).
  assert (Hb : exists c, b = c * k /\ vv_cap d <= c /\ n <= c).
  { unfold b. destruct (N.max_spec (vv_cap d * k * 2) (n * k)) as [[_ ->]|[Hle ->]].
    - exists n. repeat split; lia.
    - exists (vv_cap d * 2). repeat split; nia. }
  destruct (N.le_gt_cases m b) as [Hm|Hm].
  { rewrite N.max_r by exact Hm. left. exact Hb. }
  rewrite N.max_l by lia.
  assert (Hb2 : 2 * k <= b) by (unfold b; nia).
  assert (Hb3 : n * k <= b) by (unfold b; lia).
  unfold m in *. destruct (min_non_zero_cap_cases (t_align (G t))) as [[Ea E]|[[Ea [Ea' E]]|[Ea E]]];
    rewrite E in *; clear E.
  - assert (Hk : k = 1 \/ k = 2 \/ k = 3) by lia.
    destruct Hk as [Hk|[Hk|Hk]]; rewrite Hk in *.
    + left. exists 8. lia.
    + left. exists 4. lia.
    + right. split; [|reflexivity]. unfold bad_growth. rewrite Hs, Ea. lia.
  - left. exists 4. assert (k = 1) by lia. lia.
  - lia.
Qed.

(** Growing from capacity [cap] to hold [need] elements is possible. *)
Definition can_grow (t : tyid) (cap need : N) : Prop :=
  N.max (min_non_zero_cap (t_align (G t)) * t_align (G t)) (N.max (cap * 2) need * t_size (G t))
    <= max_alloc (t_align (G t)) /\ ~ bad_growth t cap need.

(** What a growing operation can do to the buffer. *)
Inductive reserve_result (t : tyid) (d : vecvoid) (xs : list payload) (need : N) (w : world)
    (l : list block) : outcome unit * vecvoid * world -> Prop :=
| RR_same : need <= vv_cap d -> reserve_result t d xs need w l (Ret tt, d, w)
| RR_grow d' w' :
    vv_cap d < need -> Rep G t d' xs -> need <= vv_cap d' -> vv_cap d <= vv_cap d' ->
    Owns w' (vv_own d' ++ l) -> w_trace w' = w_trace w -> can_grow t (vv_cap d) need ->
    reserve_result t d xs need w l (Ret tt, d', w')
| RR_capacity w' :
    vv_cap d < need ->
    max_alloc (t_align (G t)) <
      N.max (min_non_zero_cap (t_align (G t)) * t_align (G t))
            (N.max (vv_cap d * 2) need * t_size (G t)) ->
    Owns w' l -> w_trace w' = w_trace w ->
    reserve_result t d xs need w l (Panic PCapacity, vv_default, w')
| RR_bad w' i :
    bad_growth t (vv_cap d) need ->
    Owns w' ((i, (8, 1)) :: l) -> w_trace w' = w_trace w ->
    reserve_result t d xs need w l (Panic PAssert, vv_default, w').

Lemma carrier_reserve t d xs n w l :
  Rep G t d xs -> Owns w (vv_own d ++ l) ->
  let a := t_align (G t) in
  (lenN xs + n <= vv_cap d /\ v_reserve a a (n * chunks_of t) (carrier t d) w =
                              (Ret tt, carrier t d, w)) \/
  (vv_cap d < lenN xs + n /\
   ((exists b w' c,
       v_reserve a a (n * chunks_of t) (carrier t d) w =
         (Ret tt, SVec b (lenN xs * chunks_of t) (c * chunks_of t) (vv_bytes d), w') /\
       vv_cap d <= c /\ lenN xs + n <= c /\ c * t_size (G t) <= max_alloc a /\ b <> None /\
       Owns w' (owned b (c * t_size (G t)) a ++ l) /\ w_trace w' = w_trace w /\
       can_grow t (vv_cap d) (lenN xs + n)) \/
    (bad_growth t (vv_cap d) (lenN xs + n) /\
     exists i w',
       v_reserve a a (n * chunks_of t) (carrier t d) w =
         (Ret tt, SVec (Some i) (lenN xs * chunks_of t) 8 (vv_bytes d), w') /\
       Owns w' ((i, (8, 1)) :: l) /\ w_trace w' = w_trace w) \/
    (v_reserve a a (n * chunks_of t) (carrier t d) w = (Panic PCapacity, carrier t d, w) /\
     max_alloc a < N.max (min_non_zero_cap a * a)
            (N.max (vv_cap d * 2) (lenN xs + n) * t_size (G t))))).
Proof.
  intros H HO a. pose proof (chunks_pos t (rep_sized _ _ _ _ H)) as Hp.
  pose proof (wf_align_pos G t HG) as Ha. pose proof (chunks_size t) as Hs. fold a in Hs, Ha.
  destruct (v_reserve_spec a a (n * chunks_of t) (carrier t d) w l) as [[Hle HE]|[Hgt HR]].
  { lia. } { apply (carrier_ok _ _ _ H). } { unfold a. now rewrite (carrier_own _ _ _ H). }
  - left. split; [|exact HE]. cbn in Hle. rewrite (rep_len _ _ _ _ H) in Hle. nia.
  - right. cbn [carrier v_len v_cap v_bytes] in Hgt. rewrite (rep_len _ _ _ _ H) in Hgt.
    assert (Hneed : vv_cap d < lenN xs + n) by nia. split; [exact Hneed|].
    unfold grow_cap in HR. cbn [carrier v_len v_cap v_bytes] in HR.
    rewrite (rep_len _ _ _ _ H) in HR. rewrite <- N.mul_add_distr_r in HR.
    assert (Hmax : N.max (min_non_zero_cap a)
        (N.max (vv_cap d * chunks_of t * 2) ((lenN xs + n) * chunks_of t)) * a =
      N.max (min_non_zero_cap a * a) (N.max (vv_cap d * 2) (lenN xs + n) * t_size (G t))).
    { rewrite Hs, <- !N.mul_max_distr_r. f_equal. f_equal; lia. }
    destruct HR as [(b & w' & HE & Hm & _ & Hpt & HO' & Ht)|[HE Hcap]].
    + destruct (grow_cap_multiple t d xs (lenN xs + n) H Hneed) as [(c & Hc & Hc1 & Hc2)|[Hbad Hc]];
        fold a in Hc; rewrite Hc in *.
      * assert (Hcg : can_grow t (vv_cap d) (lenN xs + n)).
        { split; [fold a; rewrite <- Hmax; exact Hm|].
          intros (Hb3 & Hb1 & Hbc & Hbn). fold a in Hb1. unfold chunks_of in Hc.
          fold a in Hc. rewrite Hb3, Hb1, Hbc, Hbn in Hc. change (3 / 1) with 3 in Hc.
          change (min_non_zero_cap 1) with 8 in Hc. lia. }
        left. exists b, w', c. rewrite <- N.mul_assoc, <- Hs in *.
        csplit; try assumption. apply Hpt.
        pose proof (rep_cap1 _ _ _ _ H). pose proof (rep_sized _ _ _ _ H). nia.
      * right. left. split; [exact Hbad|].
        destruct Hbad as (_ & Ha1 & _ & _). fold a in Ha1. rewrite Ha1 in *.
        destruct b as [i|]; [|exfalso; now apply Hpt].
        exists i, w'. csplit; assumption.
    + right. right. split; [exact HE|].
      rewrite Hmax in Hcap. destruct Hcap as [Hu|Hc]; [|exact Hc].
      apply N.max_lt_iff. right.
      assert (max_alloc a <= usize_max).
      { pose proof (max_alloc_le a). pose proof isize_lt_usize. lia. }
      rewrite Hs. nia.
Qed.

Lemma vv_reserve_rep t d xs n w l :
  Rep G t d xs -> Owns w (vv_own d ++ l) -> n * chunks_of t <= usize_max ->
  reserve_result t d xs (lenN xs + n) w l (vv_reserve P n d w).
Proof.
  intros H HO Hn. unfold vv_reserve. rewrite (dispatch_rep t d xs) by exact H.
  rewrite (rep_elem _ _ _ _ H). cbn [elem_new e_size]. fold (chunks_of t).
  unfold with_val. rewrite umul_ok by exact Hn.
  pose proof (rep_no_overflow _ _ _ H) as (H1 & H2 & H3).
  destruct (carrier_reserve t d xs n w l H HO)
    as [[Hle HE]|[Hgt [(b & w' & c & HE & Hc1 & Hc2 & Hc3 & Hb & HO' & Ht & Hcg)
                      |[(Hbad & i & w' & HE & HO' & Ht)|(HE & Hcap)]]]]; rewrite HE.
  - rewrite (from_vec_override_ok t (carrier t d) (vv_len d) (vv_cap d)); try reflexivity;
      try apply H; try assumption.
    2:{ rewrite (rep_len _ _ _ _ H). apply H. }
    destruct d as [blk len cap el bs]. cbn [carrier v_blk vv_blk v_bytes vv_len vv_cap vv_bytes].
    pose proof (rep_elem _ _ _ _ H) as He. cbn in He. rewrite <- He. now apply RR_same.
  - assert (Hcu : c * chunks_of t <= usize_max).
    { pose proof (chunks_le_size t c). pose proof (max_alloc_le (t_align (G t))).
      pose proof isize_lt_usize. lia. }
    pose proof (rep_cap1 _ _ _ _ H).
    rewrite (from_vec_override_ok t _ (lenN xs) c); cbn; try reflexivity; try lia; try apply H; try assumption.
    apply RR_grow; cbn; try assumption.
    + split; cbn; try reflexivity; try assumption; try apply H; lia.
    + unfold vv_own. cbn. now rewrite num_bytes_new.
  - destruct Hbad as (Hs3 & Ha1 & Hc1 & Hn2).
    assert (Hk : chunks_of t = 3).
    { unfold chunks_of. rewrite Hs3, Ha1. reflexivity. }
    unfold from_vec_override. cbn [elem_new e_alignment e_size v_len v_cap v_blk v_bytes].
    fold (chunks_of t). rewrite Hk, Ha1. rewrite assert_true by reflexivity. cbn [obind].
    rewrite v_capacity_sized by lia. cbn [v_cap]. rewrite assert_true by reflexivity.
    cbn [obind]. change (1 / 1) with 1.
    rewrite !umul_ok.
    2:{ vm_compute. discriminate. }
    2:{ rewrite N.mul_1_r. rewrite (rep_len _ _ _ _ H), Hk in H1. exact H1. }
    cbn [obind]. rewrite N.mul_1_r. unfold umod, udiv. change (3 =? 0) with false. cbn [obind].
    rewrite N.mod_mul by lia. cbn [obind assert_ N.eqb].
    rewrite N.div_mul by lia.
    change (8 * 1) with 8. change (8 mod 3) with 2. cbn [obind assert_ N.eqb retype].
    eapply RR_bad; [|exact HO'|exact Ht]. repeat split; assumption.
  - destruct (v_drop_ok (t_align (G t)) (t_align (G t)) (carrier t d) w l) as (w' & -> & HO' & Ht).
    { apply (carrier_ok _ _ _ H). } { now rewrite (carrier_own _ _ _ H). }
    cbn [unwind]. now apply RR_capacity.
Qed.


(** Rebuilding a buffer from a carrier vector that holds [c] elements' worth of capacity. *)
Lemma rebuild t xs b c :
  t_size (G t) <> 0 -> lenN xs <= c -> 1 <= c -> c * t_size (G t) <= max_alloc (t_align (G t)) ->
  b <> None ->
  let d' := VecVoid b (lenN xs) c (elem_new G t) (encs G t xs) in
  from_vec_override P (t_align (G t))
    (SVec b (lenN xs * chunks_of t) (c * chunks_of t) (encs G t xs)) (elem_new G t) = Ret d' /\
  Rep G t d' xs /\
  vv_own d' = owned b (c * t_size (G t)) (t_align (G t)).
Proof.
  intros Hz Hn Hc Hm Hb d'.
  assert (Hcu : c * chunks_of t <= usize_max).
  { pose proof (chunks_le_size t c). pose proof (max_alloc_le (t_align (G t))).
    pose proof isize_lt_usize. lia. }
  csplit.
  - now rewrite (from_vec_override_ok t _ (lenN xs) c).
  - now split.
  - unfold vv_own, d'. cbn. now rewrite num_bytes_new.
Qed.

Lemma vv_truncate_rep t d xs n w l :
  Rep G t d xs -> Owns w (vv_own d ++ l) -> n <= lenN xs ->
  exists d', vv_truncate P n d w = (Ret tt, d', w) /\ Rep G t d' (firstnN n xs) /\
             vv_cap d' = vv_cap d /\ vv_blk d' = vv_blk d /\ Owns w (vv_own d' ++ l).
Proof.
  intros H HO Hn. unfold vv_truncate. rewrite (dispatch_rep t d xs) by exact H.
  rewrite (rep_elem _ _ _ _ H). cbn [elem_new e_size]. fold (chunks_of t).
  pose proof (rep_no_overflow _ _ _ H) as (H1 & H2 & H3). pose proof (rep_len _ _ _ _ H) as HL.
  pose proof (chunks_pos t (rep_sized _ _ _ _ H)) as Hp.
  rewrite HL in *. unfold with_val. rewrite umul_ok by nia. unfold v_truncate. cbn [carrier v_len].
  rewrite HL.
  destruct (lenN xs * chunks_of t <? n * chunks_of t) eqn:E.
  { apply N.ltb_lt in E. nia. }
  cbn [carrier v_blk v_bytes v_cap]. rewrite (rep_bytes _ _ _ _ H).
  rewrite <- N.mul_assoc, <- chunks_size, firstnN_encs.
  assert (HLn : lenN (firstnN n xs) = n) by (rewrite lenN_firstnN; lia).
  destruct (rebuild t (firstnN n xs) (vv_blk d) (vv_cap d)) as (HE & HR & HOw); try apply H.
  { rewrite HLn. pose proof (rep_cap _ _ _ _ H). lia. }
  rewrite HLn in HE. rewrite HE. eexists. split; [rewrite <- HLn at 1; reflexivity|].
  split; [exact HR|]. cbn [vv_cap vv_blk]. csplit; try reflexivity.
  rewrite HOw, <- (rep_own _ _ _ H). exact HO.
Qed.

(** Growing by [n] elements, then appending the bytes of [n] elements. *)
Inductive grow_result (t : tyid) (d : vecvoid) (zs : list payload) (w : world)
    (l : list block) : outcome unit * vecvoid * world -> Prop :=
| GR_ok d' w' :
    Rep G t d' zs -> vv_cap d <= vv_cap d' ->
    (lenN zs <= vv_cap d -> w' = w /\ vv_cap d' = vv_cap d /\ vv_blk d' = vv_blk d) ->
    Owns w' (vv_own d' ++ l) -> w_trace w' = w_trace w ->
    lenN zs <= vv_cap d \/ can_grow t (vv_cap d) (lenN zs) ->
    grow_result t d zs w l (Ret tt, d', w')
| GR_capacity w' :
    vv_cap d < lenN zs ->
    max_alloc (t_align (G t)) <
      N.max (min_non_zero_cap (t_align (G t)) * t_align (G t))
            (N.max (vv_cap d * 2) (lenN zs) * t_size (G t)) ->
    Owns w' l -> w_trace w' = w_trace w ->
    grow_result t d zs w l (Panic PCapacity, vv_default, w')
| GR_bad w' i :
    bad_growth t (vv_cap d) (lenN zs) ->
    Owns w' ((i, (8, 1)) :: l) -> w_trace w' = w_trace w ->
    grow_result t d zs w l (Panic PAssert, vv_default, w').

Lemma bad_growth_override t b n bs cap need :
  bad_growth t cap need -> n * 3 <= usize_max ->
  from_vec_override P (t_align (G t)) (SVec b (n * chunks_of t) 8 bs) (elem_new G t) =
  Panic PAssert.
Proof.
  intros (Hs3 & Ha1 & _ & _) H1.
  assert (Hk : chunks_of t = 3).
  { unfold chunks_of. rewrite Hs3, Ha1. reflexivity. }
  unfold from_vec_override. cbn [elem_new e_alignment e_size v_len v_cap v_blk v_bytes].
  fold (chunks_of t). rewrite Hk, Ha1. rewrite assert_true by reflexivity. cbn [obind].
  rewrite v_capacity_sized by lia. cbn [v_cap]. rewrite assert_true by reflexivity.
  cbn [obind]. change (1 / 1) with 1.
  rewrite !umul_ok.
  2:{ vm_compute. discriminate. }
  2:{ now rewrite N.mul_1_r. }
  cbn [obind]. rewrite N.mul_1_r. unfold umod, udiv. change (3 =? 0) with false. cbn [obind].
  rewrite N.mod_mul by lia. cbn [obind assert_ N.eqb].
  rewrite N.div_mul by lia.
  change (8 * 1) with 8. change (8 mod 3) with 2. reflexivity.
Qed.

(** src/vec_void.rs:264-279 for elements of one chunk. *)
Lemma vv_push_one_chunk t d xs v w l :
  Rep G t d xs -> Owns w (vv_own d ++ l) -> t_size (G t) = t_align (G t) ->
  grow_result t d (xs ++ [v]) w l (vv_push P (enc G t v) d w).
Proof.
  intros H HO Hsa. unfold vv_push. rewrite (dispatch_rep t d xs) by exact H.
  pose proof (rep_no_overflow _ _ _ H) as (H1 & H2 & H3). pose proof (rep_len _ _ _ _ H) as HL.
  assert (Hk : chunks_of t = 1).
  { unfold chunks_of. rewrite Hsa. apply N.div_same. pose proof (wf_align_pos G t HG). lia. }
  destruct (lenN (enc G t v) <? t_align (G t)) eqn:E.
  { apply N.ltb_lt in E. rewrite enc_length in E. lia. }
  rewrite firstnN_all by (rewrite enc_length; lia).
  assert (Hlen : lenN (xs ++ [v]) = lenN xs + 1) by (rewrite lenN_app; reflexivity).
  assert (HP : v_push (t_align (G t)) (t_align (G t)) (enc G t v) (carrier t d) w =
    match v_reserve (t_align (G t)) (t_align (G t)) (1 * chunks_of t) (carrier t d) w with
    | (Ret _, v1, w1) =>
        (Ret tt, SVec (v_blk v1) (v_len v1 + 1) (v_cap v1) (v_bytes v1 ++ enc G t v), w1)
    | (o, v1, w1) => (o, v1, w1)
    end).
  { unfold v_push, v_reserve. rewrite v_capacity_sized.
    2:{ pose proof (wf_align_pos G t HG). lia. }
    rewrite Hk. change (1 * 1) with 1.
    assert (Hc : v_len (carrier t d) <= v_cap (carrier t d)) by apply (carrier_ok _ _ _ H).
    destruct (v_len (carrier t d) =? v_cap (carrier t d)) eqn:E1.
    - apply N.eqb_eq in E1.
      replace (v_cap (carrier t d) - v_len (carrier t d) <? 1) with true.
      2:{ symmetry. apply N.ltb_lt. lia. }
      destruct (v_grow _ _ _ _ _) as [[[] ?] ?]; reflexivity.
    - apply N.eqb_neq in E1.
      replace (v_cap (carrier t d) - v_len (carrier t d) <? 1) with false; [reflexivity|].
      symmetry. apply N.ltb_ge. lia. }
  rewrite HP. clear HP.
  assert (Henc : encs G t xs ++ enc G t v = encs G t (xs ++ [v])).
  { now rewrite encs_app, encs_one. }
  destruct (carrier_reserve t d xs 1 w l H HO)
    as [[Hle HE]|[Hgt [(b & w' & c & HE & Hc1 & Hc2 & Hc3 & Hb & HO' & Ht & Hcg)
                      |[(Hbad & i & w' & HE & HO' & Ht)|(HE & Hcap)]]]]; rewrite HE.
  - cbn [carrier v_blk v_len v_cap v_bytes]. rewrite (rep_bytes _ _ _ _ H), HL, Henc.
    replace (lenN xs * chunks_of t + 1) with (lenN (xs ++ [v]) * chunks_of t) by (rewrite Hlen; nia).
    destruct (rebuild t (xs ++ [v]) (vv_blk d) (vv_cap d)) as (HF & HR & HOw); try apply H.
    { now rewrite Hlen. }
    rewrite HF. apply GR_ok; try assumption; cbn; try reflexivity; [auto| |left; lia].
    rewrite HOw, <- (rep_own _ _ _ H). exact HO.
  - cbn [v_blk v_len v_cap v_bytes]. rewrite (rep_bytes _ _ _ _ H), Henc.
    replace (lenN xs * chunks_of t + 1) with (lenN (xs ++ [v]) * chunks_of t) by (rewrite Hlen; nia).
    destruct (rebuild t (xs ++ [v]) b c) as (HF & HR & HOw); try assumption; try apply H.
    { now rewrite Hlen. } { lia. }
    rewrite HF. apply GR_ok; try assumption; cbn; try lia; [now rewrite HOw|].
    right. now rewrite Hlen.
  - exfalso. destruct Hbad as (Hs3 & Ha1 & _). lia.
  - destruct (v_drop_ok (t_align (G t)) (t_align (G t)) (carrier t d) w l) as (w' & -> & HO' & Ht).
    { apply (carrier_ok _ _ _ H). } { now rewrite (carrier_own _ _ _ H). }
    cbn [unwind]. rewrite <- Hlen in *. now apply GR_capacity.
Qed.

(** The same function on elements of more than one chunk always panics. *)
Lemma vv_push_many_chunks t d xs bs w l :
  Rep G t d xs -> Owns w (vv_own d ++ l) -> t_align (G t) < t_size (G t) ->
  lenN bs = t_size (G t) ->
  exists w' leak,
    (vv_push P bs d w = (Panic PAssert, vv_default, w') \/
     vv_push P bs d w = (Panic PCapacity, vv_default, w') /\ leak = []) /\
    Owns w' (leak ++ l) /\ w_trace w' = w_trace w /\
    (vv_push P bs d w = (Panic PAssert, vv_default, w') -> lenN leak = 1).
Proof.
  intros H HO Hsa Hbs. unfold vv_push. rewrite (dispatch_rep t d xs) by exact H.
  pose proof (rep_no_overflow _ _ _ H) as (H1 & H2 & H3). pose proof (rep_len _ _ _ _ H) as HL.
  pose proof (wf_align_pos G t HG) as Ha. pose proof (chunks_size t) as Hs.
  assert (Hk : 2 <= chunks_of t) by nia.
  destruct (lenN bs <? t_align (G t)) eqn:E.
  { apply N.ltb_lt in E. lia. }
  assert (Hover : forall b cap bs',
            chunks_of t <= cap ->
            from_vec_override P (t_align (G t)) (SVec b (vv_len d * chunks_of t + 1) cap bs')
                              (elem_new G t) = Panic PAssert).
  { intros b cap bs' Hcap. unfold from_vec_override.
    cbn [elem_new e_alignment e_size v_len v_cap v_blk v_bytes]. fold (chunks_of t).
    rewrite assert_true by apply N.eqb_refl. cbn [obind].
    rewrite v_capacity_sized by lia. cbn [v_cap]. rewrite assert_true by now apply N.leb_le.
    cbn [obind]. rewrite N.div_same by lia.
    assert (Hu : vv_len d * chunks_of t + 1 <= usize_max).
    { pose proof (rep_cap _ _ _ _ H). rewrite <- HL in *.
      pose proof (chunks_le_size t (vv_cap d)). pose proof (rep_max _ _ _ _ H).
      pose proof (max_alloc_le (t_align (G t))).
      assert (isize_max < usize_max) by (vm_compute; reflexivity). nia. }
    rewrite (umul_ok P (vv_len d * chunks_of t + 1) 1) by now rewrite N.mul_1_r.
    cbn [obind]. rewrite N.mul_1_r. unfold umod.
    destruct (chunks_of t =? 0) eqn:E0; [apply N.eqb_eq in E0; lia|]. cbn [obind].
    rewrite N.add_comm, N.mod_add by lia. rewrite N.mod_small by lia. reflexivity. }
  unfold v_push. rewrite v_capacity_sized by lia.
  assert (Hcc : chunks_of t <= v_cap (carrier t d)).
  { cbn. pose proof (rep_cap1 _ _ _ _ H). nia. }
  destruct (v_len (carrier t d) =? v_cap (carrier t d)) eqn:E1.
  - destruct (v_grow_spec (t_align (G t)) (t_align (G t)) 1 (carrier t d) w l)
      as [(b & w' & HE & Hm & _ & Hpt & HO' & Ht)|[HE _]].
    { lia. } { apply (carrier_ok _ _ _ H). } { now rewrite (carrier_own _ _ _ H). }
    + rewrite HE. cbn [v_blk v_len v_cap v_bytes carrier].
      assert (Hg : chunks_of t <= grow_cap (t_align (G t)) 1 (carrier t d)).
      { unfold grow_cap. cbn [carrier v_cap] in *. lia. }
      rewrite Hover by exact Hg. cbn [retype].
      destruct b as [i|].
      2:{ exfalso. apply Hpt; [nia|reflexivity]. }
      exists w'. eexists. csplit; [left; reflexivity|exact HO'|exact Ht|].
      intros _. cbn [owned]. destruct (_ =? 0) eqn:E2; [apply N.eqb_eq in E2; nia|reflexivity].
    + rewrite HE.
      destruct (v_drop_ok (t_align (G t)) (t_align (G t)) (carrier t d) w l) as (w' & -> & HO' & Ht).
      { apply (carrier_ok _ _ _ H). } { now rewrite (carrier_own _ _ _ H). }
      exists w', []. cbn [unwind]. csplit; try assumption; [right; auto|discriminate].
  - cbn [v_blk v_len v_cap v_bytes carrier]. rewrite Hover by exact Hcc. cbn [retype].
    exists w, (vv_own d). csplit; [left; reflexivity|exact HO|reflexivity|].
    intros _. rewrite (rep_own _ _ _ H). unfold owned.
    destruct (vv_blk d) eqn:Eb; [|now elim (rep_blk _ _ _ _ H)].
    destruct (_ =? 0) eqn:E2; [|reflexivity].
    apply N.eqb_eq in E2. pose proof (rep_cap1 _ _ _ _ H). nia.
Qed.

(** src/vec_void.rs:243-261 *)
Inductive append_result (t : tyid) (d d2 : vecvoid) (xs ys : list payload) (w : world)
    (l : list block) : outcome unit * vecvoid * vecvoid * world -> Prop :=
| AR_ok d' d2' w' :
    Rep G t d' (xs ++ ys) -> Rep G t d2' [] ->
    vv_cap d2' = vv_cap d2 -> vv_blk d2' = vv_blk d2 -> vv_cap d <= vv_cap d' ->
    Owns w' (vv_own d' ++ vv_own d2' ++ l) -> w_trace w' = w_trace w ->
    lenN (xs ++ ys) <= vv_cap d \/ can_grow t (vv_cap d) (lenN (xs ++ ys)) ->
    append_result t d d2 xs ys w l (Ret tt, d', d2', w')
| AR_capacity w' :
    vv_cap d < lenN (xs ++ ys) ->
    max_alloc (t_align (G t)) <
      N.max (min_non_zero_cap (t_align (G t)) * t_align (G t))
            (N.max (vv_cap d * 2) (lenN (xs ++ ys)) * t_size (G t)) ->
    Owns w' l -> w_trace w' = w_trace w ->
    append_result t d d2 xs ys w l (Panic PCapacity, vv_default, vv_default, w')
| AR_bad d2' w' i :
    bad_growth t (vv_cap d) (lenN (xs ++ ys)) ->
    Rep G t d2' [] -> vv_cap d2' = vv_cap d2 -> vv_blk d2' = vv_blk d2 ->
    Owns w' ((i, (8, 1)) :: vv_own d2' ++ l) -> w_trace w' = w_trace w ->
    append_result t d d2 xs ys w l (Panic PAssert, vv_default, d2', w').

Lemma rep_nil t d ys :
  Rep G t d ys ->
  let d' := VecVoid (vv_blk d) 0 (vv_cap d) (elem_new G t) [] in
  from_vec_override P (t_align (G t)) (SVec (vv_blk d) 0 (vv_cap d * chunks_of t) [])
    (elem_new G t) = Ret d' /\ Rep G t d' [] /\ vv_own d' = vv_own d.
Proof.
  intros H d'. destruct (rebuild t [] (vv_blk d) (vv_cap d)) as (HF & HR & HOw); try apply H.
  { pose proof (rep_cap1 _ _ _ _ H). rewrite lenN_nil. lia. }
  rewrite lenN_nil in *. rewrite (rep_own _ _ _ H). auto.
Qed.

Lemma vv_append_rep t d d2 xs ys w l :
  Rep G t d xs -> Rep G t d2 ys -> Owns w (vv_own d ++ vv_own d2 ++ l) ->
  append_result t d d2 xs ys w l (vv_append P d d2 w).
Proof.
  intros H H' HO. unfold vv_append. rewrite (rep_elem _ _ _ _ H), (rep_elem _ _ _ _ H').
  cbn [elem_new e_type_id e_alignment e_size]. rewrite !N.eqb_refl. cbn [negb].
  rewrite !andb_false_r. rewrite eval_align_legal by apply (wf_types G HG t).
  unfold apply_aligned_unchecked at 1. rewrite (aligned_vec_rep _ _ _ H).
  unfold apply_aligned_unchecked. rewrite (aligned_vec_rep _ _ _ H').
  rewrite (rep_elem _ _ _ _ H), (rep_elem _ _ _ _ H').
  unfold v_append. cbn [carrier v_len v_cap v_blk v_bytes].
  pose proof (rep_len _ _ _ _ H) as HL. pose proof (rep_len _ _ _ _ H') as HL'.
  pose proof (rep_no_overflow _ _ _ H) as (H1 & H2 & H3).
  pose proof (rep_no_overflow _ _ _ H') as (H1' & H2' & H3').
  fold (carrier t d). rewrite HL'.
  assert (Hlen : lenN (xs ++ ys) = lenN xs + lenN ys) by apply lenN_app.
  destruct (rep_nil t d2 ys H') as (HF2 & HR2 & HOw2).
  destruct (carrier_reserve t d xs (lenN ys) w (vv_own d2 ++ l) H HO)
    as [[Hle HE]|[Hgt [(b & w' & c & HE & Hc1 & Hc2 & Hc3 & Hb & HO' & Ht & Hcg)
                      |[(Hbad & i & w' & HE & HO' & Ht)|(HE & Hcap)]]]]; rewrite HE.
  - rewrite HF2. cbn [carrier v_len v_cap v_blk v_bytes].
    rewrite (rep_bytes _ _ _ _ H), (rep_bytes _ _ _ _ H'), <- encs_app, HL, <- N.mul_add_distr_r,
      <- Hlen.
    destruct (rebuild t (xs ++ ys) (vv_blk d) (vv_cap d)) as (HF & HR & HOw); try apply H.
    { now rewrite Hlen. }
    rewrite HF. apply AR_ok; try assumption; cbn; try reflexivity; [|left; lia].
    rewrite HOw, <- (rep_own _ _ _ H), HOw2. exact HO.
  - rewrite HF2. cbn [carrier v_len v_cap v_blk v_bytes].
    rewrite (rep_bytes _ _ _ _ H), (rep_bytes _ _ _ _ H'), <- encs_app, <- N.mul_add_distr_r,
      <- Hlen.
    destruct (rebuild t (xs ++ ys) b c) as (HF & HR & HOw); try assumption; try apply H.
    { now rewrite Hlen. } { pose proof (rep_cap1 _ _ _ _ H). lia. }
    rewrite HF. apply AR_ok; try assumption; cbn; try reflexivity; [|right; now rewrite Hlen].
    now rewrite HOw, HOw2.
  - rewrite HF2. cbn [v_len v_cap v_blk v_bytes]. rewrite <- N.mul_add_distr_r.
    erewrite bad_growth_override; [|exact Hbad|].
    2:{ destruct Hbad as (_ & _ & _ & Hn2). rewrite Hn2. vm_compute. discriminate. }
    cbn [retype]. eapply AR_bad; cbn; try reflexivity; try exact Ht; try assumption.
    + now rewrite Hlen.
    + rewrite HOw2. exact HO'.
  - assert (Hd2 : ptr_ok (vv_blk d2) (vv_cap d2 * chunks_of t * t_align (G t))).
    { intros _. apply H'. }
    destruct (v_drop_ok (t_align (G t)) (t_align (G t)) (carrier t d2) w (vv_own d ++ l))
      as (w1 & HD1 & HO1 & Ht1).
    { exact Hd2. }
    { rewrite (carrier_own _ _ _ H'). eapply Owns_perm; [|exact HO].
      rewrite !app_assoc. apply Permutation_app_tail, Permutation_app_comm. }
    fold (carrier t d2). rewrite HD1. cbn [unwind].
    destruct (v_drop_ok (t_align (G t)) (t_align (G t)) (carrier t d) w1 l)
      as (w2 & HD2 & HO2 & Ht2).
    { apply (carrier_ok _ _ _ H). } { now rewrite (carrier_own _ _ _ H). }
    rewrite HD2. cbn [unwind]. rewrite <- Hlen in *. apply AR_capacity; try assumption.
    congruence.
Qed.


(** ** Rotation *)

(** When is [n * k] computed without silently wrapping?  Either it fits or overflow panics. *)
Definition no_wrap (n k : N) : Prop := n * k <= usize_max \/ overflow_checks P = true.

Lemma umul_no_wrap n k :
  no_wrap n k -> umul P n k = Ret (n * k) \/ (umul P n k = Panic POverflow /\ usize_max < n * k).
Proof.
  intros H. unfold umul. destruct (n * k <=? usize_max) eqn:E; [auto|].
  apply N.leb_gt in E. destruct H as [H|H]; [lia|]. rewrite H. auto.
Qed.

Lemma rot_bytes t m xs :
  skipnN (m * chunks_of t * t_align (G t)) (encs G t xs) ++
  firstnN (m * chunks_of t * t_align (G t)) (encs G t xs) =
  encs G t (skipnN m xs ++ firstnN m xs).
Proof. rewrite <- N.mul_assoc, <- chunks_size, skipnN_encs, firstnN_encs. now rewrite encs_app. Qed.

Lemma lenN_rot {A} m (xs : list A) : lenN (skipnN m xs ++ firstnN m xs) = lenN xs.
Proof. rewrite lenN_app, lenN_skipnN, lenN_firstnN. lia. Qed.

Lemma vv_rotate_left_rep t d xs n w l :
  Rep G t d xs -> Owns w (vv_own d ++ l) -> t_align (G t) <= 8192 -> n <= lenN xs ->
  exists d', vv_rotate_left P n d w = (Ret tt, d', w) /\
             Rep G t d' (skipnN n xs ++ firstnN n xs) /\
             vv_cap d' = vv_cap d /\ vv_blk d' = vv_blk d /\ Owns w (vv_own d' ++ l).
Proof.
  intros H HO Ha Hn. unfold vv_rotate_left. rewrite (dispatch_rep_with _ t d xs) by
    first [exact H | apply eval_align_limited_legal; [apply (wf_types G HG t)|exact Ha]].
  rewrite (rep_elem _ _ _ _ H). cbn [elem_new e_size]. fold (chunks_of t).
  pose proof (rep_no_overflow _ _ _ H) as (H1 & H2 & H3). pose proof (rep_len _ _ _ _ H) as HL.
  rewrite HL in *. unfold with_val. rewrite umul_ok by nia. unfold v_rotate_left, pure_op.
  cbn [carrier v_len v_blk v_cap v_bytes]. rewrite HL.
  destruct (n * chunks_of t <=? lenN xs * chunks_of t) eqn:E.
  2:{ apply N.leb_gt in E. nia. }
  rewrite (rep_bytes _ _ _ _ H), rot_bytes.
  destruct (rebuild t (skipnN n xs ++ firstnN n xs) (vv_blk d) (vv_cap d)) as (HE & HR & HOw);
    try apply H.
  { rewrite lenN_rot. apply H. }
  rewrite lenN_rot in *. rewrite HE. eexists. csplit; try reflexivity; try exact HR.
  rewrite HOw, <- (rep_own _ _ _ H). exact HO.
Qed.

Lemma vv_rotate_right_rep t d xs n w l :
  Rep G t d xs -> Owns w (vv_own d ++ l) -> t_align (G t) <= 8192 -> n <= lenN xs ->
  exists d', vv_rotate_right P n d w = (Ret tt, d', w) /\
             Rep G t d' (skipnN (lenN xs - n) xs ++ firstnN (lenN xs - n) xs) /\
             vv_cap d' = vv_cap d /\ vv_blk d' = vv_blk d /\ Owns w (vv_own d' ++ l).
Proof.
  intros H HO Ha Hn. unfold vv_rotate_right. rewrite (dispatch_rep_with _ t d xs) by
    first [exact H | apply eval_align_limited_legal; [apply (wf_types G HG t)|exact Ha]].
  rewrite (rep_elem _ _ _ _ H). cbn [elem_new e_size]. fold (chunks_of t).
  pose proof (rep_no_overflow _ _ _ H) as (H1 & H2 & H3). pose proof (rep_len _ _ _ _ H) as HL.
  rewrite HL in *. unfold with_val. rewrite umul_ok by nia. unfold v_rotate_right, pure_op.
  cbn [carrier v_len v_blk v_cap v_bytes]. rewrite HL.
  destruct (n * chunks_of t <=? lenN xs * chunks_of t) eqn:E.
  2:{ apply N.leb_gt in E. nia. }
  replace (lenN xs * chunks_of t - n * chunks_of t) with ((lenN xs - n) * chunks_of t) by nia.
  rewrite (rep_bytes _ _ _ _ H), rot_bytes. set (m := lenN xs - n).
  destruct (rebuild t (skipnN m xs ++ firstnN m xs) (vv_blk d) (vv_cap d)) as (HE & HR & HOw);
    try apply H.
  { rewrite lenN_rot. apply H. }
  rewrite lenN_rot in *. rewrite HE. eexists. csplit; try reflexivity; try exact HR.
  rewrite HOw, <- (rep_own _ _ _ H). exact HO.
Qed.

(** Out of range: panic, contents destroyed and block freed. *)
Lemma vv_rotate_out t d xs n w l :
  Rep G t d xs -> Owns w (vv_own d ++ l) -> t_align (G t) <= 8192 -> lenN xs < n ->
  no_wrap n (chunks_of t) ->
  exists p w', (p = PAssert \/ p = POverflow) /\
    vv_rotate_left P n d w = (Panic p, vv_default, w') /\
    vv_rotate_right P n d w = (Panic p, vv_default, w') /\
    Owns w' l /\ w_trace w' = w_trace w.
Proof.
  intros H HO Ha Hn Hw. unfold vv_rotate_left, vv_rotate_right.
  rewrite !(dispatch_rep_with _ t d xs) by
    first [exact H | apply eval_align_limited_legal; [apply (wf_types G HG t)|exact Ha]].
  rewrite (rep_elem _ _ _ _ H). cbn [elem_new e_size]. fold (chunks_of t).
  pose proof (rep_len _ _ _ _ H) as HL.
  destruct (v_drop_ok (t_align (G t)) (t_align (G t)) (carrier t d) w l) as (w' & HD & HO' & Ht).
  { apply (carrier_ok _ _ _ H). } { now rewrite (carrier_own _ _ _ H). }
  pose proof (chunks_pos t (rep_sized _ _ _ _ H)) as Hp.
  unfold with_val. destruct (umul_no_wrap _ _ Hw) as [->|[-> _]].
  - unfold v_rotate_left, v_rotate_right, pure_op. cbn [carrier v_len]. rewrite HL.
    destruct (n * chunks_of t <=? lenN xs * chunks_of t) eqn:E.
    { apply N.leb_le in E. nia. }
    cbn [retype]. fold (carrier t d). rewrite HD. exists PAssert, w'. csplit; auto.
  - cbn [retype]. rewrite HD. exists POverflow, w'. csplit; auto.
Qed.

(** Alignments above 8192 have no arm in the limited dispatch. *)
Lemma vv_rotate_big t d xs n w :
  Rep G t d xs -> 8192 < t_align (G t) ->
  vv_rotate_left P n d w = (Panic PUnreachable, d, w) /\
  vv_rotate_right P n d w = (Panic PUnreachable, d, w).
Proof.
  intros H Ha. unfold vv_rotate_left, vv_rotate_right, dispatch.
  rewrite (rep_elem _ _ _ _ H). cbn [elem_new e_alignment].
  rewrite eval_align_limited_big; [auto|apply (wf_types G HG t)|exact Ha].
Qed.

(** ** Cloning *)

Lemma Owns_swap w a b l : Owns w (a ++ b ++ l) -> Owns w (b ++ a ++ l).
Proof.
  apply Owns_perm. rewrite !app_assoc. apply Permutation_app_tail, Permutation_app_comm.
Qed.

(** src/vec_void.rs:28-56: always succeeds. *)
Lemma vv_clone_rep t d xs w l :
  Rep G t d xs -> Owns w (vv_own d ++ l) ->
  exists d' w', vv_clone P d w = (Ret d', w') /\ Rep G t d' xs /\ vv_cap d' = vv_cap d /\
                Owns w' (vv_own d' ++ vv_own d ++ l) /\ w_trace w' = w_trace w.
Proof.
  intros H HO. unfold vv_clone. rewrite (rep_elem _ _ _ _ H).
  change (e_alignment (elem_new G t)) with (t_align (G t)).
  rewrite eval_align_legal by apply (wf_types G HG t). rewrite (aligned_vec_rep _ _ _ H).
  pose proof (wf_align_pos G t HG) as Ha. pose proof (chunks_size t) as Hs.
  rewrite v_capacity_sized by lia. cbn [carrier v_cap]. unfold v_with_capacity.
  destruct (t_align (G t) =? 0) eqn:E0; [apply N.eqb_eq in E0; lia|].
  assert (Hsz : vv_cap d * chunks_of t * t_align (G t) = vv_cap d * t_size (G t)) by (rewrite Hs; lia).
  rewrite Hsz.
  destruct (vv_cap d * t_size (G t) <=? max_alloc (t_align (G t))) eqn:E1.
  2:{ apply N.leb_gt in E1. pose proof (rep_max _ _ _ _ H). lia. }
  destruct (alloc_owns (vv_cap d * t_size (G t)) (t_align (G t)) w _ HO)
    as (b & w' & -> & HO' & Hpt & Ht).
  unfold v_clone_from, v_reserve. rewrite v_capacity_sized by lia.
  unfold v_clear. cbn [carrier v_cap v_len v_blk v_bytes]. rewrite N.sub_0_r.
  destruct (vv_cap d * chunks_of t <? vv_len d * chunks_of t) eqn:E2.
  { apply N.ltb_lt in E2. pose proof (rep_cap _ _ _ _ H). rewrite <- (rep_len _ _ _ _ H) in *. nia. }
  cbn [carrier v_blk v_len v_cap v_bytes]. rewrite (rep_bytes _ _ _ _ H), (rep_len _ _ _ _ H).
  destruct (rebuild t xs b (vv_cap d)) as (HE & HR & HOw); try apply H.
  { apply Hpt. pose proof (rep_cap1 _ _ _ _ H). pose proof (rep_sized _ _ _ _ H). nia. }
  rewrite HE. do 2 eexists. csplit; try reflexivity; try exact HR; try exact Ht.
  rewrite HOw. exact HO'.
Qed.

(** ** resize_with by one element (src/vec_void.rs:284-313 as used by [push_cloned]) *)

Lemma lenN_zeros n : lenN (repeat (Byte 0) (N.to_nat n)) = n.
Proof. rewrite lenN_repeat. lia. Qed.

(** The outcome depends on growing and on the initialiser, which sees zeroed bytes. *)
Inductive resize_one_result (t : tyid) (d : vecvoid) (xs : list payload)
    (init : list mbyte -> world -> outcome (list mbyte) * world) (w : world) (l : list block)
  : outcome unit * vecvoid * world -> Prop :=
| RO_ok w1 v d' w' :
    w_trace w1 = w_trace w ->
    init (repeat (Byte 0) (N.to_nat (t_size (G t)))) w1 = (Ret (enc G t v), w') ->
    Rep G t d' (xs ++ [v]) -> vv_cap d <= vv_cap d' ->
    (lenN xs + 1 <= vv_cap d -> w1 = w /\ vv_cap d' = vv_cap d /\ vv_blk d' = vv_blk d) ->
    (forall l', Owns w1 l' <-> Owns w' l') ->
    Owns w' (vv_own d' ++ l) ->
    lenN xs + 1 <= vv_cap d \/ can_grow t (vv_cap d) (lenN xs + 1) ->
    resize_one_result t d xs init w l (Ret tt, d', w')
| RO_init w1 p w2 w' :
    w_trace w1 = w_trace w ->
    init (repeat (Byte 0) (N.to_nat (t_size (G t)))) w1 = (Panic p, w2) ->
    Owns w' l -> w_trace w' = w_trace w2 ->
    resize_one_result t d xs init w l (Panic p, vv_default, w')
| RO_capacity w' :
    vv_cap d < lenN xs + 1 ->
    max_alloc (t_align (G t)) <
      N.max (min_non_zero_cap (t_align (G t)) * t_align (G t))
            (N.max (vv_cap d * 2) (lenN xs + 1) * t_size (G t)) ->
    Owns w' l -> w_trace w' = w_trace w ->
    resize_one_result t d xs init w l (Panic PCapacity, vv_default, w')
| RO_bad w1 v w' i :
    bad_growth t (vv_cap d) (lenN xs + 1) ->
    w_trace w1 = w_trace w ->
    init (repeat (Byte 0) (N.to_nat (t_size (G t)))) w1 = (Ret (enc G t v), w') ->
    Owns w' ((i, (8, 1)) :: l) ->
    resize_one_result t d xs init w l (Panic PAssert, vv_default, w').

Lemma vv_resize_with_one t d xs init w l :
  Rep G t d xs -> Owns w (vv_own d ++ l) ->
  (forall bs w1, lenN bs = t_size (G t) ->
     (exists v w2, init bs w1 = (Ret (enc G t v), w2) /\ forall l', Owns w1 l' <-> Owns w2 l') \/
     (exists p w2, init bs w1 = (Panic p, w2) /\ forall l', Owns w1 l' <-> Owns w2 l')) ->
  resize_one_result t d xs init w l (vv_resize_with P (vv_len d + 1) init d w).
Proof.
  intros H HO Hinit. unfold vv_resize_with. rewrite (dispatch_rep t d xs) by exact H.
  rewrite (rep_elem _ _ _ _ H). rewrite num_bytes_new by exact HG.
  change (e_size (elem_new G t)) with (chunks_of t).
  pose proof (rep_no_overflow _ _ _ H) as (H1 & H2 & H3). pose proof (rep_len _ _ _ _ H) as HL.
  pose proof (chunks_pos t (rep_sized _ _ _ _ H)) as Hp. pose proof (chunks_size t) as Hs.
  assert (Hmul : (vv_len d + 1) * chunks_of t <= usize_max).
  { pose proof (wf_size_max _ (wf_types G HG t)). pose proof (chunks_le_size t 1).
    pose proof (chunks_le_size t (vv_len d)).
    assert (isize_max + isize_max <= usize_max) by (vm_compute; discriminate). nia. }
  unfold with_val. rewrite umul_ok by exact Hmul.
  unfold v_resize_zeroed. cbn [carrier v_len v_blk v_cap v_bytes]. fold (carrier t d).
  destruct (vv_len d * chunks_of t <? (vv_len d + 1) * chunks_of t) eqn:E.
  2:{ apply N.ltb_ge in E. nia. }
  replace ((vv_len d + 1) * chunks_of t - vv_len d * chunks_of t) with (1 * chunks_of t) by nia.
  assert (Hafter : forall b cap w1,
    resize_init (t_align (G t)) (t_size (G t)) (vv_len d * chunks_of t) init
      (SVec b ((vv_len d + 1) * chunks_of t) cap
         (vv_bytes d ++ repeat (Byte 0) (N.to_nat (1 * chunks_of t * t_align (G t))))) w1 =
      match init (repeat (Byte 0) (N.to_nat (t_size (G t)))) w1 with
      | (Ret bs, w2) =>
          (Ret tt, SVec b ((vv_len d + 1) * chunks_of t) cap (vv_bytes d ++ bs), w2)
      | (o, w2) =>
          (retype o, SVec b ((vv_len d + 1) * chunks_of t) cap
             (vv_bytes d ++ repeat (Byte 0) (N.to_nat (1 * chunks_of t * t_align (G t)))), w2)
      end).
  { intros b cap w1. unfold resize_init. cbn [v_len v_bytes v_blk v_cap].
    destruct ((vv_len d + 1) * chunks_of t <? vv_len d * chunks_of t) eqn:E1;
      [apply N.ltb_lt in E1; nia|].
    assert (Hb : lenN (vv_bytes d) = vv_len d * chunks_of t * t_align (G t)).
    { rewrite (rep_bytes _ _ _ _ H), encs_length, HL, Hs. lia. }
    assert (Hz : 1 * chunks_of t * t_align (G t) = t_size (G t)) by (rewrite Hs; lia).
    rewrite Hz, lenN_app, lenN_zeros, Hb.
    match goal with |- context [?a <? ?b] => destruct (a <? b) eqn:E2 end;
      [apply N.ltb_lt in E2; lia|].
    rewrite <- Hb, firstnN_app_exact, skipnN_app_exact by reflexivity.
    rewrite firstnN_all by (rewrite lenN_zeros; lia).
    rewrite skipnN_all by (rewrite lenN_app, lenN_zeros; lia).
    destruct (init _ _) as [[bs| | |] w2]; try reflexivity. now rewrite app_nil_r. }
  assert (Hlen : forall v : payload, lenN (xs ++ [v]) = lenN xs + 1)
    by (intros; rewrite lenN_app; reflexivity).
  assert (Henc : forall v, vv_bytes d ++ enc G t v = encs G t (xs ++ [v])).
  { intros v. now rewrite encs_app, encs_one, (rep_bytes _ _ _ _ H). }
  set (zs := repeat (Byte 0) (N.to_nat (t_size (G t)))) in *.
  assert (Hzs : lenN zs = t_size (G t)) by apply lenN_zeros.
  destruct (carrier_reserve t d xs 1 w l H HO)
    as [[Hle HE]|[Hgt [(b & w' & c & HE & Hc1 & Hc2 & Hc3 & Hb & HO' & Ht & Hcg)
                      |[(Hbad & i & w' & HE & HO' & Ht)|(HE & Hcap)]]]]; rewrite HE.
  - cbn [carrier v_blk v_len v_cap v_bytes]. rewrite Hafter.
    destruct (Hinit zs w Hzs) as [(v & w2 & Hi & Hown)|(p & w2 & Hi & Hown)]; rewrite Hi; fold zs in Hi.
    + rewrite Henc. rewrite HL, <- (Hlen v).
      destruct (rebuild t (xs ++ [v]) (vv_blk d) (vv_cap d)) as (HF & HR & HOw); try apply H.
      { now rewrite Hlen. }
      rewrite HF. eapply RO_ok; try exact Hi; try exact HR; try reflexivity; try assumption.
      * auto.
      * apply Hown. rewrite HOw, <- (rep_own _ _ _ H). exact HO.
      * now left.
    + cbn [retype]. apply Hown in HO.
      match goal with |- context [v_drop_nodrop _ _ ?v ?w] =>
        destruct (v_drop_ok (t_align (G t)) (t_align (G t)) v w l) as (w' & -> & HO' & Ht) end.
      { apply (carrier_ok _ _ _ H). } { change (Owns w2 (v_own (t_align (G t)) (t_align (G t)) (carrier t d) ++ l)).
        now rewrite (carrier_own _ _ _ H). }
      cbn [unwind]. eapply RO_init; try exact Hi; try assumption; reflexivity.
  - cbn [v_blk v_len v_cap v_bytes]. rewrite Hafter.
    destruct (Hinit zs w' Hzs) as [(v & w2 & Hi & Hown)|(p & w2 & Hi & Hown)]; rewrite Hi; fold zs in Hi.
    + rewrite Henc. rewrite HL, <- (Hlen v).
      destruct (rebuild t (xs ++ [v]) b c) as (HF & HR & HOw); try assumption; try apply H.
      { now rewrite Hlen. } { lia. }
      rewrite HF. eapply RO_ok; try exact Hi; try exact HR; try assumption; cbn; try lia.
      { apply Hown. now rewrite HOw. } { now right. }
    + cbn [retype]. apply Hown in HO'.
      match goal with |- context [v_drop_nodrop _ _ ?v ?w] =>
        destruct (v_drop_ok (t_align (G t)) (t_align (G t)) v w l) as (w3 & -> & HO3 & Ht3) end.
      { cbn. now intros _. }
      { unfold v_own. cbn [v_blk v_cap]. rewrite <- N.mul_assoc, <- Hs. exact HO'. }
      cbn [unwind]. eapply RO_init; try exact Hi; assumption.
  - cbn [v_blk v_len v_cap v_bytes]. rewrite Hafter.
    destruct (Hinit zs w' Hzs) as [(v & w2 & Hi & Hown)|(p & w2 & Hi & Hown)]; rewrite Hi; fold zs in Hi.
    + erewrite bad_growth_override; [|exact Hbad|].
      2:{ rewrite HL. destruct Hbad as (_ & _ & _ & ->). vm_compute. discriminate. }
      cbn [retype]. eapply RO_bad; try exact Hi; try assumption. apply Hown. exact HO'.
    + cbn [retype]. apply Hown in HO'.
      match goal with |- context [v_drop_nodrop _ _ ?v ?w] =>
        destruct (v_drop_ok (t_align (G t)) (t_align (G t)) v w l) as (w3 & -> & HO3 & Ht3) end.
      { cbn. discriminate. }
      { unfold v_own. cbn [v_blk v_cap]. destruct Hbad as (_ & -> & _). exact HO'. }
      cbn [unwind]. eapply RO_init; try exact Hi; assumption.
  - destruct (v_drop_ok (t_align (G t)) (t_align (G t)) (carrier t d) w l) as (w' & -> & HO' & Ht).
    { apply (carrier_ok _ _ _ H). } { now rewrite (carrier_own _ _ _ H). }
    cbn [unwind]. now apply RO_capacity.
Qed.

End Specs.
