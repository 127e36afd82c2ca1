(** * Views: programs that cut a mutable slice into parts and work on the parts, run on the model of
    /repo/src/slice_copy.rs.  The parts share the memory of the slice they are cut from: when the
    program is done with them (also when it panics) the slice holds what was written through them. *)

From Verif Require Export SliceCopy PanicSpec Reach.

Section Views.
Context {V : Type} (P : profile) (G : tenv).

(** A reference to a user's value; its table plays no role. *)
Definition user_ref (t : tyid) (v : payload) : copy_ref unit := copy_ref_new G t v tt.

(** Runs one operation: src/slice_copy.rs, the functions named in ViewSpec.v. *)
Definition run_vop (o : vop) (s : slicecopy V) : outcome obs * slicecopy V :=
  let say {A} (k : A -> obs) (r : outcome A * slicecopy V) :=
    let '(o, s') := r in (let! a := o in Ret (k a), s') in
  match o with
  | WLen => (let! n := sl_len P s in Ret (ONum n), s)
  | WIsEmpty => (Ret (OBool (sl_is_empty s)), s)
  | WRead t => (let! x := slm_as_slice P G t s in Ret (OVals x), s)
  | WIter t => (let! rs := sl_iter s in let! x := downcast_all G t rs in Ret (OVals x), s)
  | WGet i t => (let! r := sl_get P i s in let! x := cr_downcast G t r in Ret (OVal x), s)
  | WGetAs t i => (let! x := sl_get_as P G t i s in Ret (OVal x), s)
  | WSetAs t i v => say OBool (slm_set_as P G t i v s)
  | WCopyTo i t v => say OBool (slm_get_mut_copy P i (user_ref t v) s)
  | WCopyAll t v => say (fun _ => OUnit) (slm_iter_copy (user_ref t v) s)
  | WCopyFrom t vs => say OBool (slm_copy_from_slice P G t vs s)
  | WUpdate t f => say OBool (slm_update P G t f s)
  | WRotL k => say (fun _ => OUnit) (slm_rotate_left P k s)
  | WRotR k => say (fun _ => OUnit) (slm_rotate_right P k s)
  | WSwap i j => say (fun _ => OUnit) (slm_swap P i j s)
  end.

(** The byte offset of the first part and the parts, which follow each other: src/slice_copy.rs:
    684-718, 757-794, [chunks_exact_mut], [split_at], [subslice_mut]. *)
Definition cut_slice (c : cut) (s : slicecopy V) : outcome (N * list (slicecopy V)) :=
  let sub r := let! p := sl_subslice P r s in Ret (fst p, [snd p]) in
  match c with
  | CSub a b => sub (RRange a b)
  | CTo b => sub (RTo b)
  | CFrom a => sub (RFrom a)
  | CFull => sub RFull
  | CSplit k => let! p := sl_split_at P k s in Ret (0, [fst (fst p); snd p])
  | CChunks k => let! cs := sl_chunks_exact P k s in Ret (0, cs)
  end.

(** The answers, how the program ended, and the slice afterwards. *)
Fixpoint run_view (p : vprog) (s : slicecopy V) : list obs * outcome unit * slicecopy V :=
  match p with
  | WOp o =>
      match run_vop o s with
      | (Ret a, s') => ([a], Ret tt, s')
      | (o', s') => ([], retype o', s')
      end
  | WCut c b =>
      match cut_slice c s with
      | Ret (off, parts) =>
          let '(os, o, parts') := run_body b parts in
          (os, o, sl_write off (List.concat (map sl_data parts')) s)
      | o => ([], retype o, s)
      end
  end
with run_body (b : vbody) (parts : list (slicecopy V))
  : list obs * outcome unit * list (slicecopy V) :=
  match b with
  | BNil => ([], Ret tt, parts)
  | BDo j p b' =>
      match nth_error parts j with
      | Some s =>
          let '(os, o, s') := run_view p s in
          let parts' := list_set parts j s' in
          match o with
          | Ret _ => let '(os', o', parts'') := run_body b' parts' in (os ++ os', o', parts'')
          | _ => (os, o, parts')
          end
      | None => run_body b' parts
      end
  end.

(** ... on [self.as_mut_slice()] of a [VecCopy] (src/vec_copy.rs:704-717) or a [VecDyn]
    (src/vec_dyn.rs:562-568, which wraps the former). *)
Definition vc_run_view (p : vprog) (self : veccopy V) : list obs * outcome unit * veccopy V :=
  match vc_as_slice P self with
  | Ret s =>
      let '(os, o, s') := run_view p s in
      (os, o, VecCopy (vv_splice 0 (sl_data s') (vc_data self)) (vc_vtable self))
  | o => ([], retype o, self)
  end.

End Views.

(** Arguments whose byte positions are representable, or the build checks for overflow. *)
Definition vop_fits (P : profile) (sz : N) (o : vop) : Prop :=
  match o with
  | WGet i _ | WCopyTo i _ _ => fits P (i + 1) sz
  | WRotL k | WRotR k => fits P k sz
  | WSwap i j => fits P (i + 1) sz /\ fits P (j + 1) sz
  | _ => True
  end.
Definition cut_fits (P : profile) (sz : N) (c : cut) : Prop :=
  match c with
  | CSub a b => fits P a sz /\ fits P b sz
  | CTo a | CFrom a | CSplit a => fits P a sz
  | CFull => True
  | CChunks k => k * sz <= usize_max
  end.
Fixpoint view_fits (P : profile) (sz : N) (p : vprog) : Prop :=
  match p with
  | WOp o => vop_fits P sz o
  | WCut c b => cut_fits P sz c /\ body_fits P sz b
  end
with body_fits (P : profile) (sz : N) (b : vbody) : Prop :=
  match b with BNil => True | BDo _ p b' => view_fits P sz p /\ body_fits P sz b' end.

(** The program only reads and moves elements, with the functions that slices of owned elements
    (/repo/src/slice.rs) pass on to the slice of bytes in them. *)
Definition vop_moves (o : vop) : Prop :=
  match o with
  | WGet _ _ | WIter _ | WSetAs _ _ _ | WCopyTo _ _ _ | WCopyAll _ _ | WCopyFrom _ _ | WUpdate _ _ => False
  | _ => True
  end.
Fixpoint view_moves (p : vprog) : Prop :=
  match p with WOp o => vop_moves o | WCut _ b => body_moves b end
with body_moves (b : vbody) : Prop :=
  match b with BNil => True | BDo _ p b' => view_moves p /\ body_moves b' end.

(** ** Programs of calls and views *)

Section Programs.
Context {V : Type} (P : profile) (G : tenv) (build : tyid -> V).

(** One step of a program: as in Machine.v, or a view program on [as_mut_slice()] of a buffer.  What
    a panicking view program has written stays written. *)
Definition run_xstep (s : xstep) (st : cstate (V := V)) : outcome xreport * cstate :=
  match s with
  | XStep s' =>
      let '(o, st') := run_step P G build s' st in (let! r := o in Ret (XAns r), st')
  | XView h p =>
      match get st h with
      | Some b =>
          let '(os, o, b') := vc_run_view P G p b in
          (let! _ := o in Ret (XSeen os), CState (list_set (c_store st) h (Some b')) (c_world st))
      | None => (Ret (XAns RInvalid), st)
      end
  end.

(** As [run] of Machine.v. *)
Fixpoint xrun (prog : list xstep) (st : cstate) : list (outcome xreport) * cstate :=
  match prog with
  | [] => ([], st)
  | s :: prog' =>
      match run_xstep s st with
      | (Ret r, st') => let '(rs, st'') := xrun prog' st' in (Ret r :: rs, st'')
      | (Panic p, st') => let '(rs, st'') := xrun prog' st' in (Panic p :: rs, st'')
      | (o, st') => ([o], st')
      end
  end.

(** Conditions, as in Machine.v. *)
Definition xstep_typed (s : xstep) : Prop :=
  match s with XStep s' => step_typed G s' | XView _ _ => True end.
Definition xstep_in_range (s : xstep) (st : cstate (V := V)) : Prop :=
  match s with
  | XStep s' => step_in_range P G s' st
  | XView h p => match get st h with Some b => view_fits P (vc_element_size b) p | None => True end
  end.
Fixpoint xin_range (prog : list xstep) (st : cstate (V := V)) : Prop :=
  match prog with
  | [] => True
  | s :: prog' => xstep_in_range s st /\ xin_range prog' (snd (run_xstep s st))
  end.

End Programs.

(** What is found in a slot, and what is reported. *)
Definition found {V} (G : tenv) (s : option (veccopy V)) (a : option held) : Prop :=
  match s, a with
  | None, None => True
  | Some b, Some (Holds t xs) => shows G b t xs
  | Some b, Some Lost => gone G b
  | _, _ => False
  end.
Definition reported (o : outcome xreport) (r : option xreport) : Prop :=
  match o, r with
  | Ret a, Some a' => a = a'
  | Panic _, None => True
  | _, _ => False
  end.

(** The step works on buffer [h]. *)
Definition xtouches (h : nat) (s : xstep) : Prop :=
  match s with XStep s' => touches h s' | XView k _ => k = h end.

(** Buffers none of which lost its contents. *)
Definition nothing_lost (lst : lstore) : hstore :=
  map (option_map (fun b => Holds (fst b) (snd b))) lst.
