(** * DynPanicSpec: what programs over [VecDyn]s and owned values do whose steps may panic, in terms
    of plain lists.

    This file does not use the model of the code.  DynSpec.v says what a step means when it returns;
    here is also said when a step may panic, and which objects and which clones and drops it leaves
    behind then.  A program catches every panic and goes on. *)

From Verif Require Export DynSpec.
From Verif Require Import PanicSpec.

(** [call_leaves G c ty xs tr left tr']: the call [c] on a vector of [xs], elements of type [ty],
    after trace [tr], may panic with the vector holding [left] ([None]: a panic has taken the
    contents) and with the trace [tr']. *)
Definition call_leaves (G : tenv) (c : dcall) (ty : tyid) (xs : list payload) (tr : list event)
    (left : option (list payload)) (tr' : list event) : Prop :=
  let n := N.of_nat (List.length xs) in
  match c with
  | VGetAs _ i | VGet i _ => nthN xs i = None /\ left = Some xs /\ tr' = tr
  | VSetAs t i v => nthN xs i = None /\ left = Some xs /\ tr' = tr ++ drops G t [v]
  | VPushAs t v =>
      t = ty /\ no_room G ty n (n + 1) /\ left = None /\ tr' = tr ++ drops G t [v] ++ drops G ty xs
  | VResize t m v =>
      t = ty /\ n <= m /\
      ((no_room G ty n m \/ odd_growth_to G ty n m) /\ left = None /\ tr' = tr ++ drops G t [v] \/
       (exists cs tr1, clone_seq G t (repeat v (N.to_nat (m - n))) tr = (cs, false, tr1) /\
          left = Some (xs ++ cs) /\ tr' = tr1 ++ drops G t [v]) \/
       (* the room to be reserved is computed modulo 2^64, so that less is reserved *)
       (usize_max < (m - n) * (t_size (G ty) / t_align (G ty)) /\
        exists cs c tr1 k, (k < N.to_nat (m - n))%nat /\
          clone_seq G t (repeat v (S k)) tr = (cs ++ [c], true, tr1) /\
          no_room G ty (n + N.of_nat k) (n + N.of_nat k + 1) /\
          left = None /\ tr' = tr1 ++ drops G t [c] ++ drops G t (xs ++ cs) ++ drops G t [v]))
  | VFill t v =>
      t = ty /\
      exists ys tr1, replace_seq G t (repeat v (List.length xs)) xs tr = (ys, false, tr1) /\
        left = Some ys /\ tr' = tr1 ++ drops G t [v]
  | VRotL k | VRotR k =>
      tr' = tr /\
      (n < k /\ t_align (G ty) <= 8192 /\ left = None \/ 8192 < t_align (G ty) /\ left = Some xs)
  | VSwap i j =>
      i <> j /\ (nthN xs i = None \/ nthN xs j = None) /\ left = Some xs /\ tr' = tr
  | VCloneFromSlice t vs =>
      t = ty /\
      (List.length vs <> List.length xs /\ left = Some xs /\ tr' = tr \/
       List.length vs = List.length xs /\
       exists ys, replace_seq G t vs xs tr = (ys, false, tr') /\ left = Some ys)
  | VCloneIntoVec t =>
      t = ty /\ left = Some xs /\
      exists cs tr1, clone_seq G t xs tr = (cs, false, tr1) /\ tr' = tr1 ++ drops G t cs
  | VLen | VIsEmpty | VTypeId | VCheck _ | VReadAs _ | VIter _ | VClear | VHash | VFmt => False
  end.

(** What is left of a vector. *)
Definition left_obj (t : tyid) (left : option (list payload)) : lobj :=
  match left with Some xs => LVec t xs | None => LLost end.

(** Cloning one value panics, or a small value is to be made of one that is not eight bytes. *)
Definition clone_leaves (G : tenv) (small : bool) (tv : tval) (st st' : lstate) : Prop :=
  let '(t, v) := tv in
  match t_clone (G t) (l_trace st) v with
  | None => st' = st
  | Some c =>
      small = true /\ t_size (G t) <> 8 /\ st' = lemit st ([EvClone t v c] ++ drops G t [c])
  end.

(** [step_leaves G s st st']: from the objects and the trace of [st], step [s] may panic and leave
    those of [st']. *)
Definition step_leaves (G : tenv) (s : dstep) (st st' : lstate) : Prop :=
  let tr := l_trace st in
  match s with
  | DFromVec t cap vs =>
      too_big G t (N.max cap (N.of_nat (List.length vs))) /\ st' = st \/
      t_size (G t) = 0 /\ st' = lemit st (drops G t vs)
  | DWithType t => t_size (G t) = 0 /\ st' = st
  | DWithCapacity t n => (t_size (G t) = 0 \/ too_big G t n) /\ st' = st
  | DWithSize t n v =>
      (too_big G t n \/ n = 0 /\ t_size (G t) = 0) /\ st' = lemit st (drops G t [v]) \/
      n <> 0 /\
      exists cs ok tr1, clone_seq G t (repeat v (N.to_nat (n - 1))) tr = (cs, ok, tr1) /\
        if ok then t_size (G t) = 0 /\ st' = lset_trace st (tr1 ++ drops G t (cs ++ [v]))
        else st' = lset_trace st (tr1 ++ drops G t [v] ++ drops G t cs)
  | DFromSlice t vs =>
      too_big G t (N.of_nat (List.length vs)) /\ st' = st \/
      exists cs ok tr1, clone_seq G t vs tr = (cs, ok, tr1) /\ (ok = true -> t_size (G t) = 0) /\
        st' = lset_trace st (tr1 ++ drops G t cs)
  | DWithTypeFromRef src =>
      match lsource st src with
      | inr (Some (t, _)) => t_size (G t) = 0 /\ st' = st
      | inr None => st' = st
      | inl _ => False
      end
  | DClone h =>
      match lget st h with
      | Some (LVec t xs) =>
          (* the clones made so far are neither kept nor dropped *)
          exists cs tr1, clone_seq G t xs tr = (cs, false, tr1) /\ st' = lset_trace st tr1
      | _ => False
      end
  | DAppend h h' =>
      match lget st h, lget st h' with
      | Some (LVec ty xs), Some (LVec ty' ys) =>
          let n := N.of_nat (List.length xs) in
          let need := n + N.of_nat (List.length ys) in
          h <> h' /\ ty' = ty /\
          (no_room G ty n need /\ st' = lset (lset st h (Some LLost)) h' (Some LLost) \/
           odd_growth_to G ty n need /\ st' = lset (lset st h (Some LLost)) h' (Some (LVec ty' [])))
      | _, _ => False
      end
  | DSwapElems h i h' j =>
      match lget st h, lget st h' with
      | Some (LVec ty xs), Some (LVec ty' ys) =>
          h <> h' /\ (nthN xs i = None \/ nthN ys j = None) /\ st' = st
      | _, _ => False
      end
  | DPush h k =>
      match lget st h, lget st k with
      | Some (LVec ty xs), Some (LVal false t v) =>
          let n := N.of_nat (List.length xs) in
          t = ty /\ (t_size (G ty) <> 1 \/ no_room G ty n (n + 1)) /\
          st' = lset (lset st h (Some LLost)) k None
      | _, _ => False
      end
  | DPushCloned h src =>
      match lget st h, lsource st src with
      | Some (LVec ty xs), inr (Some (t, v)) =>
          let n := N.of_nat (List.length xs) in
          ty = t /\
          ((t_clone (G t) tr v = None \/ no_room G ty n (n + 1)) /\ st' = lset st h (Some LLost) \/
           exists c, t_clone (G t) tr v = Some c /\ odd_growth_to G ty n (n + 1) /\
             st' = lset (lemit st [EvClone t v c]) h (Some LLost))
      | Some (LVec _ _), inr None => st' = st
      | _, _ => False
      end
  | DAssign h i k =>
      match lget st h, lget st k with
      | Some (LVec ty xs), Some (LVal _ t v) =>
          nthN xs i = None /\ st' = lset (lemit st (drops G t [v])) k None
      | _, _ => False
      end
  | DCloneFrom h i src =>
      match lget st h, lsource st src with
      | Some (LVec ty xs), inr (Some (t, v)) =>
          (nthN xs i = None \/ ty = t /\ t_clone (G t) tr v = None) /\ st' = st
      | Some (LVec _ _), inr None => st' = st
      | _, _ => False
      end
  | DCloneFromAll h src =>
      match lget st h, lsource st src with
      | Some (LVec ty xs), inr (Some (t, v)) =>
          ty = t /\
          exists ys tr1, replace_seq G t (repeat v (List.length xs)) xs tr = (ys, false, tr1) /\
            st' = lset (lset_trace st tr1) h (Some (LVec ty ys))
      | Some (LVec _ _), inr None => st' = st
      | _, _ => False
      end
  | DCall h c =>
      match lget st h with
      | Some (LVec ty xs) =>
          exists left tr1, call_leaves G c ty xs tr left tr1 /\
            st' = lset (lset_trace st tr1) h (Some (left_obj ty left))
      | _ => False
      end
  | OCloneBox src =>
      match lsource st src with
      | inr (Some tv) => clone_leaves G false tv st st'
      | inr None => st' = st
      | inl _ => False
      end
  | OCloneSmall src =>
      match lsource st src with
      | inr (Some tv) => clone_leaves G true tv st st'
      | inr None => st' = st
      | inl _ => False
      end
  | OClone k =>
      match lget st k with
      | Some (LVal small t v) => clone_leaves G small (t, v) st st'
      | _ => False
      end
  | OCloneFrom k src =>
      match lget st k, lsource st src with
      | Some (LVal _ t v), inr (Some (t', v')) => t = t' /\ t_clone (G t) tr v' = None /\ st' = st
      | Some (LVal _ _ _), inr None => st' = st
      | _, _ => False
      end
  | DWithTypeFrom _ | DDrop _ | DIntoVec _ _ | DEq _ _ | OBox _ _ | OSmall _ _ | ODrop _
  | ODowncast _ _ | OSwapVals _ _ | OAssign _ _ | OEq _ _ | OHashVal _ | OFmtVal _ => False
  end.

(** The objects that a step names. *)
Definition source_names (s : source) : list nat :=
  match s with FromUser _ _ => [] | FromVec h _ => [h] | FromVal k => [k] end.
Definition names (s : dstep) : list nat :=
  match s with
  | DFromVec _ _ _ | DWithType _ | DWithCapacity _ _ | DWithSize _ _ _ | DFromSlice _ _
  | OBox _ _ | OSmall _ _ => []
  | DWithTypeFrom h | DClone h | DDrop h | DIntoVec h _ | DCall h _ | OClone h | ODrop h
  | ODowncast h _ | OHashVal h | OFmtVal h => [h]
  | DAppend h h' | DSwapElems h _ h' _ | DEq h h' | DPush h h' | DAssign h _ h' | OSwapVals h h'
  | OAssign h h' | OEq h h' => [h; h']
  | DWithTypeFromRef src | OCloneBox src | OCloneSmall src => source_names src
  | DPushCloned h src | DCloneFrom h _ src | DCloneFromAll h src | OCloneFrom h src =>
      h :: source_names src
  end.

(** The step names a vector whose contents are gone. *)
Definition uses_lost (st : lstate) (s : dstep) : Prop :=
  exists h, In h (names s) /\ lget st h = Some LLost.

(** What the objects are when the arguments that a step takes by value are gone. *)
Definition consume (s : dstep) (st : lstate) : list (option lobj) :=
  match s with
  | DDrop h | DIntoVec h _ => list_set (l_objs st) h None
  | DPush _ k =>
      match lget st k with
      | Some (LVal false _ _) => list_set (l_objs st) k None
      | _ => l_objs st
      end
  | DAssign _ _ k =>
      match lget st k with
      | Some (LVal _ _ _) => list_set (l_objs st) k None
      | _ => l_objs st
      end
  | _ => l_objs st
  end.

(** The drops of the values that a step takes by value. *)
Definition handed (G : tenv) (s : dstep) (st : lstate) : list event :=
  match s with
  | DCall _ (VSetAs t _ v) | DCall _ (VPushAs t v) | DCall _ (VResize t _ v)
  | DCall _ (VFill t v) => drops G t [v]
  | DPush _ k =>
      match lget st k with Some (LVal false t v) => drops G t [v] | _ => [] end
  | DAssign _ _ k =>
      match lget st k with Some (LVal _ t v) => drops G t [v] | _ => [] end
  | _ => []
  end.

(** A vector that lost its contents passes for one of values of type [()], which may be cloned. *)
Definition unit_clone (e : event) : Prop := exists v c, e = EvClone unit_id v c.

(** [dacts G st s r st']: from [st], step [s] may report [r] ([None]: it panics) and leave [st'].
    Nothing is said of the answers of a vector that lost its contents, but using it changes no
    object, and no value is cloned except those of type [()]; a value that is to be put into it is
    used up and dropped once. *)
Inductive dacts (G : tenv) (st : lstate) (s : dstep) : option dreport -> lstate -> Prop :=
| D_ret r st' : dyn_step G s st = Some (r, st') -> dacts G st s (Some r) st'
| D_panic st' : step_leaves G s st st' -> dacts G st s None st'
| D_lost r st' :
    uses_lost st s -> l_objs st' = consume s st ->
    (exists es, Forall unit_clone es /\ l_trace st' = l_trace st ++ es ++ handed G s st) ->
    dacts G st s r st'.

(** A whole program. *)
Inductive dacts_all (G : tenv) : list dstep -> lstate -> list (option dreport) -> lstate -> Prop :=
| DA_nil st : dacts_all G [] st [] st
| DA_cons s prog st r st' rs st'' :
    dacts G st s r st' -> dacts_all G prog st' rs st'' ->
    dacts_all G (s :: prog) st (r :: rs) st''.
