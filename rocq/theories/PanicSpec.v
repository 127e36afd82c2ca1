(** * PanicSpec: what programs do whose calls may panic, in terms of plain lists.

    This file does not use the model of the code.  Spec.v says what a call means when it returns;
    here is also said when a call may panic and what is left of the buffers then.  A program catches
    every panic and goes on. *)

From Verif Require Export ViewSpec.

(** A step of a program: a call, or a use of [as_mut_slice()] of a buffer, cut into parts. *)
Inductive xstep : Type :=
| XStep (s : step)
| XView (h : nat) (p : vprog).

Inductive xreport : Type :=
| XAns (r : report)
| XSeen (os : list obs).

(** No allocation has room for [n] elements. *)
Definition too_big (G : tenv) (t : tyid) (n : N) : Prop :=
  isize_max - (t_align (G t) - 1) < n * t_size (G t).

(** A vector of [n] elements of type [t] has no room for [need], and cannot get it: [Vec] at least
    doubles its capacity, and no allocation is that large. *)
Definition no_room (G : tenv) (t : tyid) (n need : N) : Prop :=
  exists cap, n <= cap /\ ~ too_big G t cap /\ cap < need /\ too_big G t (N.max (2 * cap) need).

(** The one combination for which the growth of the untyped vector goes wrong: three bytes per
    element, aligned to one, growing from one element to two. *)
Definition odd_growth_to (G : tenv) (t : tyid) (n need : N) : Prop :=
  t_size (G t) = 3 /\ t_align (G t) = 1 /\ n <= 1 /\ need = 2.

(** Growing a buffer of [n] elements to [need]; pushing a value through a reference to its bytes,
    which does not work for a type that is larger than its alignment; extending by [vals], of which
    [hint] are announced. *)
Definition grow_fails (G : tenv) (t : tyid) (n need : N) : Prop :=
  no_room G t n need \/ odd_growth_to G t n need.
Definition push_fails (G : tenv) (t : tyid) (n : N) : Prop :=
  t_size (G t) <> t_align (G t) \/ no_room G t n (n + 1).
Definition extend_fails (G : tenv) (hint : N) (vals : list (tyid * payload)) (t : tyid) (n : N)
  : Prop :=
  grow_fails G t n (n + hint) \/
  exists pre v rest, vals = pre ++ (t, v) :: rest /\ Forall (fun p => fst p = t) pre /\
    push_fails G t (n + N.of_nat (List.length pre)).

(** A call on a buffer of [xs], elements of type [ty], may panic and leave the buffer as it was:
    the documentation says so; there is no memory for the copy; the alignment is too large for the
    dispatch of rotations; the destructor of a refused value panics; a pushed value has another
    size. *)
Definition panics_kept (G : tenv) (c : call) (ty : tyid) (xs : list payload) : Prop :=
  match c with
  | SReserve _ | SExtend _ _ | SResize _ _ _ => False
  | SPushAs t _ => t <> ty /\ t_copy (G t) = false
  | SCopyIntoVec t => t = ty /\ too_big G ty (N.of_nat (List.length xs))
  | SRotL _ | SRotR _ => 8192 < t_align (G ty)
  | SPush t _ => t_size (G t) <> t_size (G ty)
  | _ => list_call c ty xs = None
  end.

(** ... and leave it without its contents: it cannot grow, or it was to be rotated too far. *)
Definition panics_lost (G : tenv) (c : call) (ty : tyid) (xs : list payload) : Prop :=
  let n := N.of_nat (List.length xs) in
  match c with
  | SReserve k => grow_fails G ty n (n + k)
  | SExtend hint vals => extend_fails G hint vals ty n
  | SPushAs t _ => t = ty /\ no_room G ty n (n + 1)
  | SPush t _ => t = ty /\ push_fails G ty n
  | SResize t m _ => t = ty /\ n <= m /\ grow_fails G ty n m
  | SRotL _ | SRotR _ => list_call c ty xs = None
  | _ => False
  end.

(** Making a buffer may panic: the type is zero-sized, or there is no memory; collecting also if
    there is no value or one of another type. *)
Definition ctor_panics (G : tenv) (c : ctor) : Prop :=
  match c with
  | KWithType t | KWithTypeFromRef t _ => t_size (G t) = 0
  | KWithCapacity t n | KWithSize t n _ => t_size (G t) = 0 \/ too_big G t n
  | KFromVec t cap vs =>
      t_size (G t) = 0 \/ too_big G t (N.max cap (N.of_nat (List.length vs)))
  | KFromSlice t vs => t_size (G t) = 0 \/ too_big G t (N.of_nat (List.length vs))
  | KFromIter hint vals =>
      match vals with
      | [] => True
      | (t, _) :: rest =>
          t_size (G t) = 0 \/ push_fails G t 0 \/ extend_fails G hint rest t 1 \/
          ~ Forall (fun p => fst p = t) rest
      end
  end.

(** What a buffer holds; [Lost]: a panic has taken its contents. *)
Inductive held : Type :=
| Holds (t : tyid) (xs : list payload)
| Lost.
Definition hstore : Type := list (option held).
Definition hget (st : hstore) (h : nat) : option held :=
  match nth_error st h with Some (Some b) => Some b | _ => None end.

(** The step uses a buffer that does not exist (any more), or one twice: not a Rust program. *)
Definition unusable (st : hstore) (s : xstep) : Prop :=
  match s with
  | XStep (MNew _) => False
  | XStep (MWithTypeFrom h) | XStep (MClone h) | XStep (MDrop h) | XStep (MIntoVec h _)
  | XStep (MCall h _) | XView h _ => hget st h = None
  | XStep (MAppend h h') => hget st h = None \/ hget st h' = None \/ h = h'
  end.

(** [acts G st s r st']: from the buffers [st], step [s] may report [r] ([None]: it panics) and
    leave the buffers [st'].  Nothing is said of the answers of a buffer that lost its contents. *)
Inductive acts (G : tenv) (st : hstore) : xstep -> option xreport -> hstore -> Prop :=
| A_invalid s : unusable st s -> acts G st s (Some (XAns RInvalid)) st
| A_new c t xs : list_ctor G c = Some (t, xs) ->
    acts G st (XStep (MNew c)) (Some (XAns (RObs OUnit))) (st ++ [Some (Holds t xs)])
| A_new_panics c : ctor_panics G c -> acts G st (XStep (MNew c)) None st
| A_with_type_from h t xs : hget st h = Some (Holds t xs) ->
    acts G st (XStep (MWithTypeFrom h)) (Some (XAns (RObs OUnit))) (st ++ [Some (Holds t [])])
| A_with_type_from_lost h : hget st h = Some Lost -> acts G st (XStep (MWithTypeFrom h)) None st
| A_clone h t xs : hget st h = Some (Holds t xs) ->
    acts G st (XStep (MClone h)) (Some (XAns (RObs OUnit))) (st ++ [Some (Holds t xs)])
| A_clone_lost h : hget st h = Some Lost -> acts G st (XStep (MClone h)) None st
| A_drop h b : hget st h = Some b ->
    acts G st (XStep (MDrop h)) (Some (XAns (RObs OUnit))) (list_set st h None)
| A_into_vec h t ty xs : hget st h = Some (Holds ty xs) ->
    acts G st (XStep (MIntoVec h t)) (Some (XAns (RObs (OVals (typed t ty xs))))) (list_set st h None)
| A_into_vec_lost h t r : hget st h = Some Lost ->
    acts G st (XStep (MIntoVec h t)) (Some (XAns (RObs (OVals r)))) (list_set st h None)
| A_append h h' t xs ys :
    hget st h = Some (Holds t xs) -> hget st h' = Some (Holds t ys) -> h <> h' ->
    acts G st (XStep (MAppend h h')) (Some (XAns (RObs (OBool true))))
      (list_set (list_set st h (Some (Holds t (xs ++ ys)))) h' (Some (Holds t [])))
| A_append_panics h h' t xs ys b :
    hget st h = Some (Holds t xs) -> hget st h' = Some (Holds t ys) -> h <> h' ->
    (let n := N.of_nat (List.length xs) in let need := n + N.of_nat (List.length ys) in
     no_room G t n need /\ b = Lost \/ odd_growth_to G t n need /\ b = Holds t []) ->
    acts G st (XStep (MAppend h h')) None (list_set (list_set st h (Some Lost)) h' (Some b))
| A_append_other h h' b b' :
    hget st h = Some b -> hget st h' = Some b' -> h <> h' ->
    match b, b' with Holds t _, Holds t' _ => t <> t' | Lost, Lost => False | _, _ => True end ->
    acts G st (XStep (MAppend h h')) (Some (XAns (RObs (OBool false)))) st
| A_append_lost h h' :
    hget st h = Some Lost -> hget st h' = Some Lost -> h <> h' ->
    acts G st (XStep (MAppend h h')) None st
| A_call h c t xs a ys :
    hget st h = Some (Holds t xs) -> list_call c t xs = Some (a, ys) ->
    acts G st (XStep (MCall h c)) (Some (XAns (RObs a))) (list_set st h (Some (Holds t ys)))
| A_call_kept h c t xs :
    hget st h = Some (Holds t xs) -> panics_kept G c t xs -> acts G st (XStep (MCall h c)) None st
| A_call_lost h c t xs :
    hget st h = Some (Holds t xs) -> panics_lost G c t xs ->
    acts G st (XStep (MCall h c)) None (list_set st h (Some Lost))
| A_extend_part h hint t xs vals t1 v1 rest :
    hget st h = Some (Holds t xs) -> Forall (fun p => fst p = t) vals -> t1 <> t ->
    acts G st (XStep (MCall h (SExtend hint (vals ++ (t1, v1) :: rest)))) None
      (list_set st h (Some (Holds t (xs ++ map snd vals))))
| A_call_on_lost h c r : hget st h = Some Lost -> acts G st (XStep (MCall h c)) r st
| A_view h p t xs os ys :
    hget st h = Some (Holds t xs) -> list_view p t xs = (os, true, ys) ->
    acts G st (XView h p) (Some (XSeen os)) (list_set st h (Some (Holds t ys)))
| A_view_panics h p t xs os ys :
    hget st h = Some (Holds t xs) -> list_view p t xs = (os, false, ys) ->
    acts G st (XView h p) None (list_set st h (Some (Holds t ys)))
| A_view_on_lost h p r : hget st h = Some Lost -> acts G st (XView h p) r st.

(** A whole program. *)
Inductive acts_all (G : tenv) : list xstep -> hstore -> list (option xreport) -> hstore -> Prop :=
| AA_nil st : acts_all G [] st [] st
| AA_cons s prog st r st' rs st'' :
    acts G st s r st' -> acts_all G prog st' rs st'' -> acts_all G (s :: prog) st (r :: rs) st''.
