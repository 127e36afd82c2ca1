(** * DynSpec: what programs over [VecDyn]s and owned values are supposed to do, on plain lists.

    This file does not use the model of the code.  A program works on numbered objects, which are
    vectors or owned values.  Here a vector is a type and a list of values, an owned value is a type
    and a value, and the trace of clones and drops is part of the state.  [None] is a panic. *)

From Verif Require Export Spec.

(** What the caller of an operation sees. *)
Inductive dobs : Type :=
| AUnit
| ABool (b : bool)
| ANum (n : N)
| AVal (v : option payload)
| AVals (vs : option (list payload))
| AHash (h : list N)          (* what is fed to the hasher *)
| AStr (s : string).

(** Calls on one vector. *)
Inductive dcall : Type :=
| VLen
| VIsEmpty
| VTypeId
| VCheck (t : tyid)
| VReadAs (t : tyid)                        (* as_slice_as, iter_as *)
| VGetAs (t : tyid) (i : N)                 (* get_ref_as *)
| VSetAs (t : tyid) (i : N) (v : payload)   (* *get_mut_as(i)? = v *)
| VGet (i : N) (t : tyid)                   (* get(i).downcast::<T>() *)
| VIter (t : tyid)                          (* iter().map(downcast).collect() *)
| VPushAs (t : tyid) (v : payload)
| VResize (t : tyid) (n : N) (v : payload)
| VFill (t : tyid) (v : payload)
| VClear
| VRotL (k : N)
| VRotR (k : N)
| VSwap (i j : N)                           (* as_mut_slice().swap(i, j) *)
| VCloneFromSlice (t : tyid) (vs : list payload)   (* as_mut_slice().clone_from_slice(&vs) *)
| VCloneIntoVec (t : tyid)                  (* the resulting Vec is read and dropped *)
| VHash
| VFmt.

(** Where a borrowed value comes from. *)
Inductive source : Type :=
| FromUser (t : tyid) (v : payload)         (* ValueRef::new(&v) *)
| FromVec (h : nat) (i : N)                 (* vector h, get(i) *)
| FromVal (k : nat).                        (* value k, as_ref() *)

(** One step of a program; [h], [k] are numbers of objects.  A step that makes an object gives it
    the next free number. *)
Inductive dstep : Type :=
| DFromVec (t : tyid) (cap : N) (vs : list payload)
| DWithType (t : tyid)
| DWithCapacity (t : tyid) (n : N)
| DWithSize (t : tyid) (n : N) (v : payload)
| DFromSlice (t : tyid) (vs : list payload)
| DWithTypeFrom (h : nat)
| DWithTypeFromRef (s : source)
| DClone (h : nat)
| DDrop (h : nat)
| DIntoVec (h : nat) (t : tyid)      (* the values of the resulting Vec go to the user *)
| DAppend (h h' : nat)
| DSwapElems (h : nat) (i : N) (h' : nat) (j : N)   (* h.get_mut(i).swap(&mut h'.get_mut(j)) *)
| DEq (h h' : nat)
| DPush (h k : nat)                  (* h.push(k), k a boxed value *)
| DPushCloned (h : nat) (s : source)
| DAssign (h : nat) (i : N) (k : nat)        (* h.get_mut(i).assign(k) *)
| DCloneFrom (h : nat) (i : N) (s : source)  (* h.get_mut(i).clone_from_other(s) *)
| DCloneFromAll (h : nat) (s : source)       (* clone_from_other(s) on each item of h.iter_mut() *)
| DCall (h : nat) (c : dcall)
| OBox (t : tyid) (v : payload)      (* BoxValue::new(v) *)
| OSmall (t : tyid) (v : payload)    (* SmallValue::try_new(v) *)
| OCloneBox (s : source)             (* s.clone_value() *)
| OCloneSmall (s : source)           (* s.clone_small_value() *)
| OClone (k : nat)
| ODrop (k : nat)
| ODowncast (k : nat) (t : tyid)     (* the value goes to the user *)
| OSwapVals (k k' : nat)             (* k.as_mut().swap(&mut k'.as_mut()) *)
| OAssign (k k' : nat)               (* k.as_mut().assign(k') *)
| OCloneFrom (k : nat) (s : source)  (* k.as_mut().clone_from_other(s) *)
| OEq (k k' : nat)
| OHashVal (k : nat)
| OFmtVal (k : nat).

(** ** Clones and drops *)

(** Dropping the values [xs] of type [t] in order: what happens on the trace.  Copy types have no
    destructor. *)
Definition drops (G : tenv) (t : tyid) (xs : list payload) : list event :=
  if t_copy (G t) then [] else map (EvDrop t) xs.

(** Cloning the values [xs] of type [t] in order after trace [tr], up to the first panic: the
    clones, whether all were made, and the trace. *)
Fixpoint clone_seq (G : tenv) (t : tyid) (xs : list payload) (tr : list event)
  : list payload * bool * list event :=
  match xs with
  | [] => ([], true, tr)
  | x :: xs' =>
      match t_clone (G t) tr x with
      | None => ([], false, tr)
      | Some c =>
          let '(cs, ok, tr') := clone_seq G t xs' (tr ++ [EvClone t x c]) in (c :: cs, ok, tr')
      end
  end.

(** Replacing each of [olds] by a clone of the corresponding item of [srcs]: clone, then drop the
    old one.  The items afterwards, whether all were replaced, and the trace. *)
Fixpoint replace_seq (G : tenv) (t : tyid) (srcs olds : list payload) (tr : list event)
  : list payload * bool * list event :=
  match srcs, olds with
  | s :: srcs', o :: olds' =>
      match t_clone (G t) tr s with
      | None => (olds, false, tr)
      | Some c =>
          let '(cs, ok, tr') :=
            replace_seq G t srcs' olds' (tr ++ [EvClone t s c] ++ drops G t [o]) in
          (c :: cs, ok, tr')
      end
  | _, _ => (olds, true, tr)
  end.

(** ** Meaning on lists *)

(** The items separated by commas, in brackets: Rust's [Debug] of a list. *)
Definition list_fmt (G : tenv) (t : tyid) (xs : list payload) : string :=
  ("[" ++ String.concat ", " (map (t_fmt (G t)) xs) ++ "]")%string.

(** A call on a vector of type [ty] holding [xs] after trace [tr]. *)
Definition dyn_call (G : tenv) (c : dcall) (ty : tyid) (xs : list payload) (tr : list event)
  : option (dobs * list payload * list event) :=
  let n := N.of_nat (List.length xs) in
  match c with
  | VLen => Some (ANum n, xs, tr)
  | VIsEmpty => Some (ABool (n =? 0), xs, tr)
  | VTypeId => Some (ANum ty, xs, tr)
  | VCheck t => Some (ABool (t =? ty), xs, tr)
  | VReadAs t => Some (AVals (typed t ty xs), xs, tr)
  | VGetAs t i | VGet i t =>
      match nthN xs i with
      | Some x => Some (AVal (typed t ty x), xs, tr)
      | None => None
      end
  | VSetAs t i v =>
      match nthN xs i with
      | Some old =>
          if t =? ty then Some (ABool true, list_set xs (N.to_nat i) v, tr ++ drops G t [old])
          else Some (ABool false, xs, tr ++ drops G t [v])
      | None => None
      end
  | VIter t => Some (AVals (if n =? 0 then Some [] else typed t ty xs), xs, tr)
  | VPushAs t v =>
      if t =? ty then Some (ABool true, xs ++ [v], tr)
      else Some (ABool false, xs, tr ++ drops G t [v])
  | VResize t m v =>
      if t =? ty then
        if n <=? m then
          let '(cs, ok, tr') := clone_seq G t (repeat v (N.to_nat (m - n))) tr in
          if ok then Some (ABool true, xs ++ cs, tr' ++ drops G t [v]) else None
        else
          Some (ABool true, firstn (N.to_nat m) xs,
                tr ++ drops G t (skipn (N.to_nat m) xs) ++ drops G t [v])
      else Some (ABool false, xs, tr ++ drops G t [v])
  | VFill t v =>
      if t =? ty then
        let '(ys, ok, tr') := replace_seq G t (repeat v (List.length xs)) xs tr in
        if ok then Some (ABool true, ys, tr' ++ drops G t [v]) else None
      else Some (ABool false, xs, tr ++ drops G t [v])
  | VClear => Some (AUnit, [], tr ++ drops G ty xs)
  | VRotL k => if k <=? n then Some (AUnit, rotl k xs, tr) else None
  | VRotR k => if k <=? n then Some (AUnit, rotr k xs, tr) else None
  | VSwap i j =>
      if (i =? j) || ((i <? n) && (j <? n)) then Some (AUnit, swapN i j xs, tr) else None
  | VCloneFromSlice t vs =>
      if t =? ty then
        if (List.length vs =? List.length xs)%nat then
          let '(ys, ok, tr') := replace_seq G t vs xs tr in
          if ok then Some (ABool true, ys, tr') else None
        else None
      else Some (ABool false, xs, tr)
  | VCloneIntoVec t =>
      if t =? ty then
        let '(cs, ok, tr') := clone_seq G t xs tr in
        if ok then Some (AVals (Some cs), xs, tr' ++ drops G t cs) else None
      else Some (AVals None, xs, tr)
  | VHash => Some (AHash (flat_map (t_hash (G ty)) xs), xs, tr)
  | VFmt => Some (AStr (list_fmt G ty xs), xs, tr)
  end.

(** The comparison of the code stops at the end of the shorter one. *)
Definition zip_eq (G : tenv) (t t' : tyid) (xs ys : list payload) : bool :=
  match xs, ys with
  | [], _ | _, [] => true
  | _, _ => (t =? t') && forallb (fun p => t_eq (G t) (fst p) (snd p)) (combine xs ys)
  end.

(** ** States *)

Definition tval : Type := (tyid * payload)%type.

(** An object: a vector with its type and contents; an owned value, boxed or small; or a vector
    whose contents a panic has taken (see DynPanicSpec.v). *)
Inductive lobj : Type :=
| LVec (t : tyid) (xs : list payload)
| LVal (small : bool) (t : tyid) (v : payload)
| LLost.

(** All objects, [None] for those that are gone, and the trace. *)
Record lstate : Type := LState { l_objs : list (option lobj); l_trace : list event }.

Definition lget (st : lstate) (h : nat) : option lobj :=
  match nth_error (l_objs st) h with Some (Some b) => Some b | _ => None end.
Definition lset (st : lstate) (h : nat) (b : option lobj) : lstate :=
  LState (list_set (l_objs st) h b) (l_trace st).
Definition lnew (st : lstate) (b : lobj) : lstate := LState (l_objs st ++ [Some b]) (l_trace st).
Definition lset_trace (st : lstate) (tr : list event) : lstate := LState (l_objs st) tr.
Definition lemit (st : lstate) (es : list event) : lstate := lset_trace st (l_trace st ++ es).

(** What a step reports. *)
Inductive dreport : Type :=
| DObs (o : dobs)
| DInvalid.       (* uses something that does not exist, or breaks the borrow rules *)

(** What a source refers to; [inl]: not a program, [inr None]: panics. *)
Definition lsource (st : lstate) (s : source) : unit + option tval :=
  match s with
  | FromUser t v => inr (Some (t, v))
  | FromVec h i =>
      match lget st h with
      | Some (LVec t xs) => inr (match nthN xs i with Some x => Some (t, x) | None => None end)
      | _ => inl tt
      end
  | FromVal k =>
      match lget st k with
      | Some (LVal _ t v) => inr (Some (t, v))
      | _ => inl tt
      end
  end.

(** The source borrows object [h]. *)
Definition uses (h : nat) (s : source) : bool :=
  match s with FromVec h' _ => (h' =? h)%nat | FromVal h' => (h' =? h)%nat | _ => false end.

Definition invalid (st : lstate) : option (dreport * lstate) := Some (DInvalid, st).
Definition obs_ (o : dobs) (st : lstate) : option (dreport * lstate) := Some (DObs o, st).

(** Zero-sized element types are rejected. *)
Definition lnew_sized (G : tenv) (t : tyid) (xs : list payload) (st : lstate)
  : option (dreport * lstate) :=
  if t_size (G t) =? 0 then None else obs_ AUnit (lnew st (LVec t xs)).

Definition lclone_val (G : tenv) (small : bool) (tv : tval) (st : lstate)
  : option (dreport * lstate) :=
  let '(t, v) := tv in
  match t_clone (G t) (l_trace st) v with
  | Some c =>
      if small && negb (t_size (G t) =? 8) then None
      else obs_ AUnit (lnew (lemit st [EvClone t v c]) (LVal small t c))
  | None => None
  end.

Definition dyn_step (G : tenv) (s : dstep) (st : lstate) : option (dreport * lstate) :=
  match s with
  | DFromVec t _ vs => lnew_sized G t vs st
  | DWithType t => lnew_sized G t [] st
  | DWithCapacity t _ => lnew_sized G t [] st
  | DWithSize t n v =>
      if n =? 0 then lnew_sized G t [] (lemit st (drops G t [v]))
      else
        let '(cs, ok, tr) := clone_seq G t (repeat v (N.to_nat (n - 1))) (l_trace st) in
        if ok then lnew_sized G t (cs ++ [v]) (lset_trace st tr) else None
  | DFromSlice t vs =>
      let '(cs, ok, tr) := clone_seq G t vs (l_trace st) in
      if ok then lnew_sized G t cs (lset_trace st tr) else None
  | DWithTypeFrom h =>
      match lget st h with
      | Some (LVec t _) => lnew_sized G t [] st
      | _ => invalid st
      end
  | DWithTypeFromRef src =>
      match lsource st src with
      | inr (Some (t, _)) => lnew_sized G t [] st
      | inr None => None
      | inl _ => invalid st
      end
  | DClone h =>
      match lget st h with
      | Some (LVec t xs) =>
          let '(cs, ok, tr) := clone_seq G t xs (l_trace st) in
          if ok then obs_ AUnit (lnew (lset_trace st tr) (LVec t cs)) else None
      | _ => invalid st
      end
  | DDrop h =>
      match lget st h with
      | Some (LVec t xs) => obs_ AUnit (lset (lemit st (drops G t xs)) h None)
      | _ => invalid st
      end
  | DIntoVec h t =>
      match lget st h with
      | Some (LVec ty xs) => obs_ (AVals (typed t ty xs)) (lset st h None)
      | _ => invalid st
      end
  | DAppend h h' =>
      match lget st h, lget st h' with
      | Some (LVec ty xs), Some (LVec ty' ys) =>
          if (h =? h')%nat then invalid st
          else if ty' =? ty then
            obs_ (ABool true) (lset (lset st h (Some (LVec ty (xs ++ ys)))) h' (Some (LVec ty' [])))
          else obs_ (ABool false) st
      | _, _ => invalid st
      end
  | DSwapElems h i h' j =>
      match lget st h, lget st h' with
      | Some (LVec ty xs), Some (LVec ty' ys) =>
          if (h =? h')%nat then invalid st
          else
            match nthN xs i, nthN ys j with
            | Some x, Some y =>
                if ty =? ty' then
                  obs_ AUnit (lset (lset st h (Some (LVec ty (list_set xs (N.to_nat i) y))))
                                       h' (Some (LVec ty' (list_set ys (N.to_nat j) x))))
                else obs_ AUnit st
            | _, _ => None
            end
      | _, _ => invalid st
      end
  | DEq h h' =>
      match lget st h, lget st h' with
      | Some (LVec ty xs), Some (LVec ty' ys) => obs_ (ABool (zip_eq G ty ty' xs ys)) st
      | _, _ => invalid st
      end
  | DPush h k =>
      match lget st h, lget st k with
      | Some (LVec ty xs), Some (LVal false t v) =>
          if t =? ty then
            obs_ (ABool true) (lset (lset st h (Some (LVec ty (xs ++ [v])))) k None)
          else obs_ (ABool false) (lset (lemit st (drops G t [v])) k None)
      | _, _ => invalid st
      end
  | DPushCloned h src =>
      if uses h src then invalid st
      else
        match lget st h, lsource st src with
        | Some (LVec ty xs), inr (Some (t, v)) =>
            if ty =? t then
              match t_clone (G t) (l_trace st) v with
              | Some c =>
                  obs_ (ABool true) (lset (lemit st [EvClone t v c]) h (Some (LVec ty (xs ++ [c]))))
              | None => None
              end
            else obs_ (ABool false) st
        | Some (LVec _ _), inr None => None
        | _, _ => invalid st
        end
  | DAssign h i k =>
      match lget st h, lget st k with
      | Some (LVec ty xs), Some (LVal _ t v) =>
          match nthN xs i with
          | Some old =>
              if ty =? t then
                obs_ AUnit (lset (lset (lemit st (drops G t [old])) h
                                        (Some (LVec ty (list_set xs (N.to_nat i) v)))) k None)
              else obs_ AUnit (lset (lemit st (drops G t [v])) k None)
          | None => None
          end
      | _, _ => invalid st
      end
  | DCloneFrom h i src =>
      if uses h src then invalid st
      else
        match lget st h, lsource st src with
        | Some (LVec ty xs), inr (Some (t, v)) =>
            match nthN xs i with
            | Some old =>
                if ty =? t then
                  match t_clone (G t) (l_trace st) v with
                  | Some c =>
                      obs_ (ABool true)
                        (lset (lemit st ([EvClone t v c] ++ drops G t [old])) h
                           (Some (LVec ty (list_set xs (N.to_nat i) c))))
                  | None => None
                  end
                else obs_ (ABool false) st
            | None => None
            end
        | Some (LVec _ _), inr None => None
        | _, _ => invalid st
        end
  | DCloneFromAll h src =>
      if uses h src then invalid st
      else
        match lget st h, lsource st src with
        | Some (LVec ty xs), inr (Some (t, v)) =>
            if ty =? t then
              let '(ys, ok, tr) :=
                replace_seq G t (repeat v (List.length xs)) xs (l_trace st) in
              if ok then obs_ AUnit (lset (lset_trace st tr) h (Some (LVec ty ys))) else None
            else obs_ AUnit st
        | Some (LVec _ _), inr None => None
        | _, _ => invalid st
        end
  | DCall h c =>
      match lget st h with
      | Some (LVec ty xs) =>
          match dyn_call G c ty xs (l_trace st) with
          | Some (o, ys, tr) => obs_ o (lset (lset_trace st tr) h (Some (LVec ty ys)))
          | None => None
          end
      | _ => invalid st
      end
  | OBox t v => obs_ AUnit (lnew st (LVal false t v))
  | OSmall t v =>
      if t_size (G t) =? 8 then obs_ (ABool true) (lnew st (LVal true t v))
      else obs_ (ABool false) st
  | OCloneBox src =>
      match lsource st src with
      | inr (Some tv) => lclone_val G false tv st
      | inr None => None
      | inl _ => invalid st
      end
  | OCloneSmall src =>
      match lsource st src with
      | inr (Some tv) => lclone_val G true tv st
      | inr None => None
      | inl _ => invalid st
      end
  | OClone k =>
      match lget st k with
      | Some (LVal small t v) => lclone_val G small (t, v) st
      | _ => invalid st
      end
  | ODrop k =>
      match lget st k with
      | Some (LVal _ t v) => obs_ AUnit (lset (lemit st (drops G t [v])) k None)
      | _ => invalid st
      end
  | ODowncast k t =>
      match lget st k with
      | Some (LVal _ ty v) => obs_ (AVal (typed t ty v)) (lset st k None)
      | _ => invalid st
      end
  | OSwapVals k k' =>
      match lget st k, lget st k' with
      | Some (LVal s t v), Some (LVal s' t' v') =>
          if (k =? k')%nat then invalid st
          else if t =? t' then
            obs_ AUnit (lset (lset st k (Some (LVal s t v'))) k' (Some (LVal s' t' v)))
          else obs_ AUnit st
      | _, _ => invalid st
      end
  | OAssign k k' =>
      match lget st k, lget st k' with
      | Some (LVal s t v), Some (LVal _ t' v') =>
          if (k =? k')%nat then invalid st
          else if t =? t' then
            obs_ AUnit (lset (lset (lemit st (drops G t [v])) k (Some (LVal s t v'))) k' None)
          else obs_ AUnit (lset (lemit st (drops G t' [v'])) k' None)
      | _, _ => invalid st
      end
  | OCloneFrom k src =>
      if uses k src then invalid st
      else
        match lget st k, lsource st src with
        | Some (LVal s t v), inr (Some (t', v')) =>
            if t =? t' then
              match t_clone (G t) (l_trace st) v' with
              | Some c =>
                  obs_ (ABool true)
                    (lset (lemit st ([EvClone t v' c] ++ drops G t [v])) k (Some (LVal s t c)))
              | None => None
              end
            else obs_ (ABool false) st
        | Some (LVal _ _ _), inr None => None
        | _, _ => invalid st
        end
  | OEq k k' =>
      match lget st k, lget st k' with
      | Some (LVal s t v), Some (LVal s' t' v') =>
          if Bool.eqb s s' then obs_ (ABool ((t =? t') && t_eq (G t) v v')) st else invalid st
      | _, _ => invalid st
      end
  | OHashVal k =>
      match lget st k with
      | Some (LVal _ t v) => obs_ (AHash (t_hash (G t) v)) st
      | _ => invalid st
      end
  | OFmtVal k =>
      match lget st k with
      | Some (LVal _ t v) => obs_ (AStr (t_fmt (G t) v)) st
      | _ => invalid st
      end
  end.

(** Run a program on lists; [None] if some step panics. *)
Fixpoint dyn_run (G : tenv) (prog : list dstep) (st : lstate) : option (list dreport * lstate) :=
  match prog with
  | [] => Some ([], st)
  | s :: prog' =>
      match dyn_step G s st with
      | Some (r, st') =>
          match dyn_run G prog' st' with
          | Some (rs, st'') => Some (r :: rs, st'')
          | None => None
          end
      | None => None
      end
  end.

(** ** Accounting for values that have a destructor *)

Definition owned_vals (G : tenv) (t : tyid) (xs : list payload) : list tval :=
  if t_copy (G t) then [] else map (pair t) xs.

(** The values that were dropped, and those that were created by cloning, on a trace. *)
Definition dropped (G : tenv) (tr : list event) : list tval :=
  flat_map (fun e => match e with EvDrop t v => owned_vals G t [v] | _ => [] end) tr.
Definition cloned (G : tenv) (tr : list event) : list tval :=
  flat_map (fun e => match e with EvClone t _ r => owned_vals G t [r] | _ => [] end) tr.

(** The values a step takes from the user by value, if it is a step of a program at all. *)
Definition step_gives (G : tenv) (s : dstep) : list tval :=
  match s with
  | DFromVec t _ vs => owned_vals G t vs
  | DWithSize t _ v => owned_vals G t [v]
  | DCall _ (VSetAs t _ v) | DCall _ (VPushAs t v) | DCall _ (VResize t _ v)
  | DCall _ (VFill t v) => owned_vals G t [v]
  | OBox t v | OSmall t v => owned_vals G t [v]
  | _ => []
  end.

(** The values a step hands to the user. *)
Definition step_takes (G : tenv) (s : dstep) (r : dreport) : list tval :=
  match s, r with
  | DIntoVec _ t, DObs (AVals (Some vs)) => owned_vals G t vs
  | ODowncast _ t, DObs (AVal (Some v)) => owned_vals G t [v]
  | _, _ => []
  end.

(** Steps by which the library loses a value without dropping it although nothing panics. *)
Definition loses (s : dstep) (r : dreport) : bool :=
  match s, r with
  | DIntoVec _ _, DObs (AVals None) => true
  | ODowncast _ _, DObs (AVal None) => true
  | OSmall _ _, DObs (ABool false) => true
  | _, _ => false
  end.

(** The values that a state holds. *)
Definition lstored (G : tenv) (st : lstate) : list tval :=
  flat_map (fun s => match s with
                     | Some (LVec t xs) => owned_vals G t xs
                     | Some (LVal _ t v) => owned_vals G t [v]
                     | Some LLost | None => []
                     end) (l_objs st).
