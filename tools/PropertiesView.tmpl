(** * PropertiesView: programs that cut mutable slices into parts.

    As in PropertiesCopy.v.  The programs and their meaning on plain lists are in ViewSpec.v; running
    them on the code is in Views.v. *)

From Verif Require Import PanicFacts Examples DynExamples.

(** ** C80 Nested views *)

@@ c80_views_partial
(** Split at 2, swap in the first part, rotate a chunk of the second part, read the first part. *)
Definition p_views (t : tyid) : vprog :=
  WCut (CSplit 2)
    (BDo 0 (WOp (WSwap 0 1))
    (BDo 1 (WCut (CChunks 2) (BDo 1 (WOp (WRotL 1)) (BDo 0 (WOp (WRotR 1)) BNil)))
    (BDo 0 (WOp (WRead t)) BNil))).
Example c80_views_ex :
  slice_ok ex_env ty_u32 [1; 2; 3; 4; 5; 6; 7]%Z /\
  view_fits release (t_size (ex_env ty_u32)) (p_views ty_u32) /\
  list_view (p_views ty_u32) ty_u32 [1; 2; 3; 4; 5; 6; 7]%Z =
    ([OUnit; OUnit; OUnit; OVals (Some [2; 1]%Z)], true, [2; 1; 4; 3; 6; 5; 7]%Z).
Proof.
  split; [split; [discriminate|vm_compute; discriminate]|]. split; [|vm_compute; reflexivity].
  cbn. unfold fits. csplit; solve [exact I|left; vm_compute; discriminate|vm_compute; discriminate].
Qed.

@@ c80_buffer_views_partial
(** The second operation panics: what was written before it stays. *)
Definition p_view_panics : vprog :=
  WCut (CSub 1 3)
    (BDo 0 (WOp (WSetAs ty_u32 1 77%Z)) (BDo 0 (WOp (WRotL 3)) (BDo 0 (WOp (WSwap 0 1)) BNil))).
Example c80_buffer_views_ex :
  live_buffer release ex_env ex_build (buf release p_u32 0) (mem release p_u32) /\
  shows ex_env (buf release p_u32 0) ty_u32 [10; 20; 30]%Z /\
  view_fits release (t_size (ex_env ty_u32)) p_view_panics /\
  list_view p_view_panics ty_u32 [10; 20; 30]%Z = ([OBool true], false, [10; 20; 77]%Z).
Proof.
  split; [apply u32_live; auto|]. split; [apply u32_shows; auto|]. split; [|vm_compute; reflexivity].
  cbn. unfold fits. csplit; solve [exact I|left; vm_compute; discriminate|vm_compute; discriminate].
Qed.

@@ c80_owned_views_partial
Example c80_owned_views_ex :
  types_ok dyn_env /\ live_vec release dyn_env (dvec release 0) (dmem release) /\
  contents dyn_env (dvec release 0) ty_string [1; 2; 3]%Z /\
  view_fits release (t_size (dyn_env ty_string)) (p_views ty_string) /\ view_moves (p_views ty_string) /\
  list_view (WCut (CFrom 1) (BDo 0 (WOp (WRotL 1)) BNil)) ty_string [1; 2; 3]%Z =
    ([OUnit], true, [1; 3; 2]%Z).
Proof.
  split; [apply dyn_env_ok|]. split; [apply dvec_live; [auto|lia]|].
  split; [split; [discriminate|vm_compute; reflexivity]|].
  split; [|split; [cbn; tauto|vm_compute; reflexivity]].
  cbn. unfold fits. csplit; solve [exact I|left; vm_compute; discriminate|vm_compute; discriminate].
Qed.

(** What lies outside the parts is left alone, whatever is done to the parts. *)
@@ c80_outside
Example c80_outside_ex :
  list_cut (CSub 1 3) [10; 20; 30; 40]%Z = Some ([10]%Z, [[20; 30]]%Z, [40]%Z) /\
  list_view (WCut (CSub 1 3) (BDo 0 (WOp (WRotL 1)) BNil)) ty_u32 [10; 20; 30; 40]%Z =
    ([OUnit], true, [10; 30; 20; 40]%Z).
Proof. split; vm_compute; reflexivity. Qed.

@@ c80_chunks
Example c80_chunks_ex :
  list_cut (CChunks 2) [1; 2; 3; 4; 5]%Z = Some ([], [[1; 2]; [3; 4]]%Z, [5]%Z).
Proof. vm_compute. reflexivity. Qed.

(** In a release build a position beyond the end whose byte offset wraps around is accepted, and so
    is a chunk size: the program writes where it should have panicked, resp. finds parts where there
    are none. *)
Theorem c80_views_refuted :
  exists p q xs,
    slice_ok ex_env ty_u32 xs /\
    list_view p ty_u32 xs = ([], false, xs) /\
    (exists os ys, run_view release ex_env p (sl_from_slice ex_env ty_u32 xs tt) =
                   (os, Ret tt, sl_from_slice ex_env ty_u32 ys tt) /\ ys <> xs) /\
    list_view q ty_u32 xs = ([], true, xs) /\
    exists os, run_view release ex_env q (sl_from_slice ex_env ty_u32 xs tt) =
               (os, Ret tt, sl_from_slice ex_env ty_u32 xs tt) /\ os <> [].
Proof.
  exists (WOp (WCopyTo (2 ^ 62 + 1) ty_u32 9%Z)),
    (WCut (CChunks (2 ^ 62 + 1)) (BDo 0 (WOp WLen) BNil)), [1; 2; 3]%Z.
  split; [split; [discriminate|vm_compute; discriminate]|].
  split; [vm_compute; reflexivity|].
  split; [eexists; exists [1; 9; 3]%Z; split; [vm_compute; reflexivity|discriminate]|].
  split; [cbn [list_view]; rewrite list_cut_short by reflexivity; reflexivity|].
  eexists. split; [vm_compute; reflexivity|discriminate].
Qed.
Print Assumptions c80_views_refuted.

(** ** C81 Programs whose calls panic *)

(** Everything a program of calls and views does is accounted for by PanicSpec.v, whichever of its
    calls panic.  Missing: calls that are out of range in a build without overflow checks. *)
@@ c81_programs
(** A refused push, an out-of-range rotation that loses a buffer, calls on the lost buffer, an
    [extend] that stops in the middle, a view that panics half way; the other buffers stay right. *)
Definition p_troubled : list xstep :=
  [XStep (MNew (KFromSlice ty_u32 [1; 2; 3]%Z)); XStep (MNew (KFromSlice ty_u32x3 [4; 5]%Z));
   XStep (MClone 0); XStep (MCall 0 (SPush ty_u32x3 6%Z)); XStep (MCall 0 (SRotL 4));
   XStep (MCall 0 SLen); XStep (MClone 0); XView 0 p_view_panics;
   XStep (MCall 2 (SExtend 0 [(ty_u32, 7); (ty_u32x3, 8); (ty_u32, 9)]%Z));
   XView 2 p_view_panics; XStep (MAppend 0 2); XStep (MCall 2 (SReadAs ty_u32));
   XStep (MNew (KWithType ty_marker)); XStep (MDrop 0); XStep (MDrop 0)].
Example c81_programs_ex : forall P, P = dev \/ P = release ->
  Forall (xstep_typed ex_env) p_troubled /\ xin_range P ex_env ex_build p_troubled c_init /\
  map (fun o => match o with Ret r => Some r | _ => None end)
      (fst (xrun P ex_env ex_build p_troubled c_init)) =
    [Some (XAns (RObs OUnit)); Some (XAns (RObs OUnit)); Some (XAns (RObs OUnit)); None; None;
     Some (XAns (RObs (ONum 0))); None; None; None; None;
     Some (XAns (RObs (OBool false))); Some (XAns (RObs (OVals (Some [1; 2; 77; 7]%Z)))); None;
     Some (XAns (RObs OUnit)); Some (XAns RInvalid)].
Proof.
  intros P [-> | ->]; (csplit; [repeat (constructor; [try exact I; vm_compute; repeat constructor|]); constructor
    |vm_compute; intuition (try discriminate; auto)|vm_compute; reflexivity]).
Qed.

(** What PanicSpec.v implies: a step leaves the buffers it is not about alone ... *)
@@ c81_other_buffers
Example c81_other_buffers_ex :
  acts ex_env [Some (Holds ty_u32 [1]%Z); Some (Holds ty_u32 [2]%Z)] (XStep (MCall 0 (SRotL 9))) None
    [Some Lost; Some (Holds ty_u32 [2]%Z)] /\ ~ xtouches 1 (XStep (MCall 0 (SRotL 9))).
Proof.
  split; [|discriminate].
  exact (A_call_lost ex_env [Some (Holds ty_u32 [1]%Z); Some (Holds ty_u32 [2]%Z)] 0 (SRotL 9) ty_u32 [1]%Z
           eq_refl eq_refl).
Qed.

(** ... and a call that returns does what Spec.v says, as long as no buffer has lost its contents. *)
@@ c81_returning_calls
Example c81_returning_calls_ex :
  acts ex_env (nothing_lost [Some (ty_u32, [1; 2]%Z)]) (XStep (MCall 0 (SGetAs ty_u32 1)))
    (Some (XAns (RObs (Spec.OVal (Some 2%Z))))) (nothing_lost [Some (ty_u32, [1; 2]%Z)]).
Proof.
  exact (A_call ex_env (nothing_lost [Some (ty_u32, [1; 2]%Z)]) 0 (SGetAs ty_u32 1) ty_u32 [1; 2]%Z
           (Spec.OVal (Some 2%Z)) [1; 2]%Z eq_refl eq_refl).
Qed.
