(** How often pushing on a [VecDyn] allocates (C84). *)

From Verif Require Import GrowFacts DynFacts6.
Import ListNotations.
Open Scope N_scope.

Lemma c84_vec_push_as_fact :
  forall (V : Type) (T : FullTable V) (P : profile) (G : tenv), types_ok G ->
  forall (b : vecdyn V) w t xs vs,
  live_vec P G b w -> contents G b t xs ->
  grown (t_size (G t)) (lenN (xs ++ vs)) * t_size (G t) <= max_alloc (t_align (G t)) ->
  exists b' w' g,
    push_each (vd_push_as P G t) vs b w = (Ret true, b', w') /\ contents G b' t (xs ++ vs) /\
    w_trace w' = w_trace w /\
    allocations w w' g /\ g <= 1 + N.log2 (lenN (xs ++ vs)) /\ (g = 0 -> w' = w).
Proof.
  intros V T P G [HG HC HQ] b w t xs vs Hb Hs Hroom.
  destruct (live_vec_rep P G HG HC HQ b w t xs Hb Hs) as (d & l & -> & HR & HO).
  destruct (push_each_count G (vc_push_as P G t) t (push_as_steps P G HG t) vs d (build_vtable (V := V) t) xs w l HR HO)
    as (d' & w' & g & HE & HR' & HO' & Ht & Hg & H0 & Hp & Hle & Hup); auto.
  exists (VecCopy d' (build_vtable t)), w', g. csplit; auto.
  - now apply (rep_contents G HG).
  - apply (log_bound g (vv_cap d)); [apply HR|exact Hp].
  - intros Hz. now apply H0.
Qed.

(** A vector made [with_capacity(n)] takes [n] values without touching the allocator. *)
Lemma c84_vec_with_capacity_fact :
  forall (V : Type) (T : FullTable V) (P : profile) (G : tenv), types_ok G ->
  forall t n vs w,
  wf_world w -> t_size (G t) <> 0 -> n * t_size (G t) <= max_alloc (t_align (G t)) -> lenN vs <= n ->
  exists (b : vecdyn V) w1 b',
    vd_with_capacity G t n w = (Ret b, w1) /\
    push_each (vd_push_as P G t) vs b w1 = (Ret true, b', w1) /\ contents G b' t vs.
Proof.
  intros V T P G [HG HC HQ] t n vs w Hw Hz Hn Hvs.
  destruct (with_capacity_rep G HG t n (build_vtable (V := V) t) w Hw Hz Hn) as (d & w1 & HE & HR & HO & Hc).
  destruct (push_as_fit P G HG t d (build_vtable (V := V) t) [] vs w1 _ HR HO) as (d' & HE' & HR' & Hcc).
  { change (lenN (@nil payload)) with 0. lia. }
  exists (VecCopy d (build_vtable t)), w1, (VecCopy d' (build_vtable t)). csplit; auto.
  now apply (rep_contents G HG).
Qed.
