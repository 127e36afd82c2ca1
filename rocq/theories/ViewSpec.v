(** * ViewSpec: what cutting a slice into parts and working on the parts means on a plain list.

    This file does not use the model of the code. *)

From Verif Require Export Spec.

(** What can be done to one view of a slice of plain data. *)
Inductive vop : Type :=
| WLen
| WIsEmpty
| WRead (t : tyid)                                (* as_slice *)
| WIter (t : tyid)                                (* iter(), every item downcast *)
| WGet (i : N) (t : tyid)                         (* get(i).downcast *)
| WGetAs (t : tyid) (i : N)                       (* get_as *)
| WSetAs (t : tyid) (i : N) (v : payload)         (* writing through get_as of a mutable slice *)
| WCopyTo (i : N) (t : tyid) (v : payload)        (* get_mut(i).copy(&v) *)
| WCopyAll (t : tyid) (v : payload)               (* every item of iter() .copy(&v) *)
| WCopyFrom (t : tyid) (vs : list payload)        (* copy_from_slice *)
| WUpdate (t : tyid) (f : nat -> payload -> payload)  (* writes through as_slice of a mutable slice *)
| WRotL (k : N)
| WRotR (k : N)
| WSwap (i j : N).

(** Ways of cutting a view into parts that are used independently. *)
Inductive cut : Type :=
| CSub (a b : N)          (* subslice(a..b): one part *)
| CTo (b : N)             (* subslice(..b) *)
| CFrom (a : N)           (* subslice(a..) *)
| CFull                   (* subslice(..) *)
| CSplit (k : N)          (* split_at(k): two parts *)
| CChunks (k : N).        (* chunks_exact(k): any number of parts *)

(** A piece of a program that owns a mutable view: do something, or cut the view and use the parts
    in any order, each of them any number of times and in the same way. *)
Inductive vprog : Type :=
| WOp (o : vop)
| WCut (c : cut) (b : vbody)
with vbody : Type :=
| BNil
| BDo (j : nat) (p : vprog) (b : vbody).     (* [p] on part number [j] *)

(** One operation on a view of [xs], elements of type [ty]: the answer and the new elements;
    [None]: panics, and the elements are as before. *)
Definition list_vop (o : vop) (ty : tyid) (xs : list payload) : option (obs * list payload) :=
  let n := N.of_nat (List.length xs) in
  match o with
  | WLen => Some (ONum n, xs)
  | WIsEmpty => Some (OBool (n =? 0), xs)
  | WRead t => Some (OVals (typed t ty xs), xs)
  | WIter t => Some (OVals (if n =? 0 then Some [] else typed t ty xs), xs)
  | WGet i t | WGetAs t i =>
      match nthN xs i with Some x => Some (OVal (typed t ty x), xs) | None => None end
  | WSetAs t i v | WCopyTo i t v =>
      if i <? n then
        Some (OBool (t =? ty), if t =? ty then list_set xs (N.to_nat i) v else xs)
      else None
  | WCopyAll t v => Some (OUnit, if t =? ty then repeat v (List.length xs) else xs)
  | WCopyFrom t vs =>
      if t =? ty then
        if (List.length vs =? List.length xs)%nat then Some (OBool true, vs) else None
      else Some (OBool false, xs)
  | WUpdate t f => Some (OBool (t =? ty), if t =? ty then mapi f xs else xs)
  | WRotL k => if k <=? n then Some (OUnit, rotl k xs) else None
  | WRotR k => if k <=? n then Some (OUnit, rotr k xs) else None
  | WSwap i j =>
      if (i =? j) || ((i <? n) && (j <? n)) then Some (OUnit, swapN i j xs) else None
  end.

(** The groups of [k] elements of a list, without a shorter last one. *)
Fixpoint groups_of (fuel k : nat) (xs : list payload) : list (list payload) :=
  match fuel with
  | O => []
  | S fuel' =>
      if (List.length xs <? k)%nat then [] else firstn k xs :: groups_of fuel' k (skipn k xs)
  end.

(** The elements before the parts, the parts, the elements after them; [None]: panics. *)
Definition list_cut (c : cut) (xs : list payload)
  : option (list payload * list (list payload) * list payload) :=
  let n := N.of_nat (List.length xs) in
  let sub a b :=
    if (a <=? b) && (b <=? n) then
      Some (firstn (N.to_nat a) xs, [firstn (N.to_nat (b - a)) (skipn (N.to_nat a) xs)],
            skipn (N.to_nat b) xs)
    else None in
  match c with
  | CSub a b => sub a b
  | CTo b => sub 0 b
  | CFrom a => sub a n
  | CFull => Some ([], [xs], [])
  | CSplit k =>
      if k <=? n then Some ([], [firstn (N.to_nat k) xs; skipn (N.to_nat k) xs], []) else None
  | CChunks k =>
      if k =? 0 then None
      else
        let gs := groups_of (List.length xs) (N.to_nat k) xs in
        Some ([], gs, skipn (List.length (List.concat gs)) xs)
  end.

(** The answers, whether the program ran to its end (otherwise it panicked), and the elements
    afterwards.  A part that does not exist: not a program, nothing happens. *)
Fixpoint list_view (p : vprog) (ty : tyid) (xs : list payload)
  : list obs * bool * list payload :=
  match p with
  | WOp o =>
      match list_vop o ty xs with
      | Some (a, ys) => ([a], true, ys)
      | None => ([], false, xs)
      end
  | WCut c b =>
      match list_cut c xs with
      | Some (before, parts, after) =>
          let '(os, ok, parts') := list_body b ty parts in
          (os, ok, before ++ List.concat parts' ++ after)
      | None => ([], false, xs)
      end
  end
with list_body (b : vbody) (ty : tyid) (parts : list (list payload))
  : list obs * bool * list (list payload) :=
  match b with
  | BNil => ([], true, parts)
  | BDo j p b' =>
      match nth_error parts j with
      | Some xs =>
          let '(os, ok, ys) := list_view p ty xs in
          let parts' := list_set parts j ys in
          if ok then let '(os', ok', parts'') := list_body b' ty parts' in (os ++ os', ok', parts'')
          else (os, false, parts')
      | None => list_body b' ty parts
      end
  end.
