(** * Spec: what a buffer is supposed to do, in terms of plain lists.

    This file does not use the model of the code.  It says what each public call means on a plain
    list of values, with [None] where the documentation says that the call panics. *)

From Verif Require Export Types.

(** What the caller of an operation sees. *)
Inductive obs : Type :=
| OUnit
| OBool (b : bool)                             (* [Some] or [None] of an [Option<&mut Self>] *)
| ONum (n : N)
| OVal (v : option payload)
| OVals (vs : option (list payload))
| OVals2 (vs1 vs2 : option (list payload)).

(** Calls on one buffer, with their arguments. *)
Inductive call : Type :=
| SLen
| SIsEmpty
| STypeId
| SCheck (t : tyid)
| SReserve (n : N)
| SClear
| SPushAs (t : tyid) (v : payload)
| SResize (t : tyid) (n : N) (v : payload)
| SFill (t : tyid) (v : payload)
| SUpdate (t : tyid) (f : nat -> payload -> payload)    (* writes through as_mut_slice_as *)
| SCopyFromSlice (t : tyid) (vs : list payload)
| SReadAs (t : tyid)                                    (* as_slice_as, iter_as *)
| SGetAs (t : tyid) (i : N)
| SSetAs (t : tyid) (i : N) (v : payload)               (* *get_mut_as(i)? = v *)
| SCopyIntoVec (t : tyid)
| SRotL (k : N)
| SRotR (k : N)
| SGetRef (i : N) (t : tyid)                            (* get_ref(i).downcast::<T>() *)
| SGetMutCopy (i : N) (t : tyid) (v : payload)          (* get_mut(i).copy(ref to v) *)
| SIter (t : tyid)                                      (* iter().map(downcast).collect() *)
| SIterMutCopy (t : tyid) (v : payload)                 (* every iter_mut() item .copy(ref to v) *)
| SPush (t : tyid) (v : payload)                        (* push(CopyValueRef::new(&v)) *)
| SExtend (hint : N) (vals : list (tyid * payload))
| SSwap (i j : N)                                       (* as_mut_slice().swap(i, j) *)
| SSliceRotL (k : N)                                    (* as_mut_slice().rotate_left(k) *)
| SSliceRotR (k : N)
| SSubslice (a b : N) (t : tyid)                        (* as_slice().subslice(a..b).as_slice() *)
| SSplitAt (k : N) (t : tyid).

(** Ways of making a new buffer without another buffer. *)
Inductive ctor : Type :=
| KFromVec (t : tyid) (cap : N) (vs : list payload)
| KWithType (t : tyid)
| KWithCapacity (t : tyid) (n : N)
| KWithSize (t : tyid) (n : N) (v : payload)
| KFromSlice (t : tyid) (vs : list payload)
| KWithTypeFromRef (t : tyid) (v : payload)
| KFromIter (hint : N) (vals : list (tyid * payload)).

(** One step of a program that uses any number of buffers. *)
Inductive step : Type :=
| MNew (c : ctor)                   (* the new buffer gets the next free number *)
| MWithTypeFrom (h : nat)           (* new empty buffer with the type of buffer [h] *)
| MClone (h : nat)                  (* new buffer *)
| MDrop (h : nat)
| MIntoVec (h : nat) (t : tyid)     (* consumes buffer [h]; the resulting Vec is then dropped *)
| MAppend (h h' : nat)              (* h.append(&mut h') *)
| MCall (h : nat) (c : call).

(** ** Meaning on lists *)

Definition rotl {A} (k : N) (l : list A) : list A :=
  skipn (N.to_nat k) l ++ firstn (N.to_nat k) l.
Definition rotr {A} (k : N) (l : list A) : list A :=
  rotl (N.of_nat (List.length l) - k) l.

Definition nthN {A} (l : list A) (i : N) : option A := nth_error l (N.to_nat i).

(** The list with the items at [i] and [j] exchanged. *)
Definition swapN {A} (i j : N) (l : list A) : list A :=
  match nthN l i, nthN l j with
  | Some x, Some y => list_set (list_set l (N.to_nat i) y) (N.to_nat j) x
  | _, _ => l
  end.

(** If the requested type is the stored one, the value, otherwise [None]. *)
Definition typed {A} (want have : tyid) (x : A) : option A :=
  if want =? have then Some x else None.

Definition same_type (t : tyid) (vals : list (tyid * payload)) : bool :=
  forallb (fun p => fst p =? t) vals.

(** A buffer holding [xs] of type [ty]: the answer and the new contents; [None]: panics. *)
Definition list_call (c : call) (ty : tyid) (xs : list payload)
  : option (obs * list payload) :=
  let n := N.of_nat (List.length xs) in
  match c with
  | SLen => Some (ONum n, xs)
  | SIsEmpty => Some (OBool (n =? 0), xs)
  | STypeId => Some (ONum ty, xs)
  | SCheck t => Some (OBool (t =? ty), xs)
  | SReserve _ => Some (OUnit, xs)
  | SClear => Some (OUnit, [])
  | SPushAs t v => Some (OBool (t =? ty), if t =? ty then xs ++ [v] else xs)
  | SResize t m v =>
      Some (OBool (t =? ty),
            if t =? ty then firstn (N.to_nat m) xs ++ repeat v (N.to_nat (m - n)) else xs)
  | SFill t v => Some (OBool (t =? ty), if t =? ty then repeat v (List.length xs) else xs)
  | SUpdate t f => Some (OBool (t =? ty), if t =? ty then mapi f xs else xs)
  | SCopyFromSlice t vs =>
      if t =? ty then
        if (List.length vs =? List.length xs)%nat then Some (OBool true, vs) else None
      else Some (OBool false, xs)
  | SReadAs t => Some (OVals (typed t ty xs), xs)
  | SGetAs t i =>
      match nthN xs i with
      | Some x => Some (OVal (typed t ty x), xs)
      | None => None
      end
  | SSetAs t i v =>
      if i <? n then
        Some (OBool (t =? ty), if t =? ty then list_set xs (N.to_nat i) v else xs)
      else None
  | SCopyIntoVec t => Some (OVals (typed t ty xs), xs)
  | SRotL k => if k <=? n then Some (OUnit, rotl k xs) else None
  | SRotR k => if k <=? n then Some (OUnit, rotr k xs) else None
  | SGetRef i t =>
      match nthN xs i with
      | Some x => Some (OVal (typed t ty x), xs)
      | None => None
      end
  | SGetMutCopy i t v =>
      if i <? n then
        Some (OBool (t =? ty), if t =? ty then list_set xs (N.to_nat i) v else xs)
      else None
  | SIter t => Some (OVals (if n =? 0 then Some [] else typed t ty xs), xs)
  | SIterMutCopy t v => Some (OUnit, if t =? ty then repeat v (List.length xs) else xs)
  | SPush t v => Some (OBool (t =? ty), if t =? ty then xs ++ [v] else xs)
  | SExtend _ vals =>
      if same_type ty vals then Some (OUnit, xs ++ map snd vals) else None
  | SSwap i j =>
      if (i =? j) || ((i <? n) && (j <? n)) then Some (OUnit, swapN i j xs) else None
  | SSliceRotL k => if k <=? n then Some (OUnit, rotl k xs) else None
  | SSliceRotR k => if k <=? n then Some (OUnit, rotr k xs) else None
  | SSubslice a b t =>
      if (a <=? b) && (b <=? n) then
        Some (OVals (typed t ty (firstn (N.to_nat (b - a)) (skipn (N.to_nat a) xs))), xs)
      else None
  | SSplitAt k t =>
      if k <=? n then
        Some (OVals2 (typed t ty (firstn (N.to_nat k) xs)) (typed t ty (skipn (N.to_nat k) xs)), xs)
      else None
  end.

(** A new buffer: type and contents.  Zero-sized types are rejected. *)
Definition list_ctor (G : tenv) (c : ctor) : option (tyid * list payload) :=
  let sized t xs := if t_size (G t) =? 0 then None else Some (t, xs) in
  match c with
  | KFromVec t _ vs => sized t vs
  | KWithType t => sized t []
  | KWithCapacity t _ => sized t []
  | KWithSize t n v => sized t (repeat v (N.to_nat n))
  | KFromSlice t vs => sized t vs
  | KWithTypeFromRef t _ => sized t []
  | KFromIter _ vals =>
      match vals with
      | [] => None
      | (t, v) :: rest => if same_type t rest then sized t (v :: map snd rest) else None
      end
  end.

(** ** Programs over any number of buffers *)

(** A store of buffers; [None] is a buffer that has been dropped or consumed. *)
Definition lstore : Type := list (option (tyid * list payload)).

(** What a step of a program reports. *)
Inductive report : Type :=
| RObs (o : obs)
| RInvalid.      (* a buffer that does not exist: not a Rust program *)

Definition list_step (G : tenv) (s : step) (st : lstore) : option (report * lstore) :=
  let get h := match nth_error st h with Some (Some b) => Some b | _ => None end in
  match s with
  | MNew c =>
      match list_ctor G c with
      | Some b => Some (RObs OUnit, st ++ [Some b])
      | None => None
      end
  | MWithTypeFrom h =>
      match get h with
      | Some (t, _) => Some (RObs OUnit, st ++ [Some (t, [])])
      | None => Some (RInvalid, st)
      end
  | MClone h =>
      match get h with
      | Some b => Some (RObs OUnit, st ++ [Some b])
      | None => Some (RInvalid, st)
      end
  | MDrop h =>
      match get h with
      | Some _ => Some (RObs OUnit, list_set st h None)
      | None => Some (RInvalid, st)
      end
  | MIntoVec h t =>
      match get h with
      | Some (ty, xs) => Some (RObs (OVals (typed t ty xs)), list_set st h None)
      | None => Some (RInvalid, st)
      end
  | MAppend h h' =>
      match get h, get h' with
      | Some (ty, xs), Some (ty', ys) =>
          if (h =? h')%nat then Some (RInvalid, st)
          else if ty' =? ty then
            Some (RObs (OBool true),
                  list_set (list_set st h (Some (ty, xs ++ ys))) h' (Some (ty', [])))
          else Some (RObs (OBool false), st)
      | _, _ => Some (RInvalid, st)
      end
  | MCall h c =>
      match get h with
      | Some (ty, xs) =>
          match list_call c ty xs with
          | Some (o, ys) => Some (RObs o, list_set st h (Some (ty, ys)))
          | None => None
          end
      | None => Some (RInvalid, st)
      end
  end.

(** Run a program on lists: the reports and the final store; [None] if some step panics. *)
Fixpoint list_run (G : tenv) (prog : list step) (st : lstore) : option (list report * lstore) :=
  match prog with
  | [] => Some ([], st)
  | s :: prog' =>
      match list_step G s st with
      | Some (r, st') =>
          match list_run G prog' st' with
          | Some (rs, st'') => Some (r :: rs, st'')
          | None => None
          end
      | None => None
      end
  end.
