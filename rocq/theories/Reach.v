(** * Reach: the vocabulary of the property statements about [VecCopy].

    Nothing here models code; these are the words the theorems use. *)

From Verif Require Export Machine.

Section Reach.
Context {V : Type} (P : profile) (G : tenv) (build : tyid -> V).

(** A state that some program reaches.  The program obeys the trait bounds ([step_typed]: checked
    by the compiler) and its arguments are in range ([in_range]: see Machine.v).  Calls of the
    program may panic; the program catches the panic and goes on. *)
Definition reachable (st : cstate (V := V)) : Prop :=
  exists prog, Forall (step_typed G) prog /\ in_range P G build prog c_init /\
               st = snd (run P G build prog c_init).

(** [b] is a live buffer of some reachable state, and [w] is that state's memory. *)
Definition live_buffer (b : veccopy V) (w : world) : Prop :=
  exists st h, reachable st /\ get st h = Some b /\ w = c_world st.

(** Two different live buffers of one reachable state. *)
Definition live_pair (b b' : veccopy V) (w : world) : Prop :=
  exists st h h', reachable st /\ h <> h' /\ get st h = Some b /\ get st h' = Some b' /\
                  w = c_world st.

(** What a user sees of a buffer: reading it with [as_slice_as::<T>()] gives [xs].  ([T] is not
    zero-sized: no buffer of zero-sized elements can be constructed, see C07.) *)
Definition shows (b : veccopy V) (t : tyid) (xs : list payload) : Prop :=
  t_size (G t) <> 0 /\ vc_as_slice_as G t b = Ret (Some xs).

(** The buffer has lost its contents: it has become a buffer of [()]. *)
Definition gone (b : veccopy V) : Prop :=
  vc_element_type_id b = unit_id /\
  forall t, t_size (G t) <> 0 -> vc_as_slice_as G t b = Ret None.

End Reach.

Definition is_ret {A} (o : outcome A) : Prop := match o with Ret _ => True | _ => False end.
Definition is_panic {A} (o : outcome A) : Prop := match o with Panic _ => True | _ => False end.

(** A step of a program mentions buffer [h] as the one it works on. *)
Definition touches (h : nat) (s : step) : Prop :=
  match s with
  | MNew _ => False
  | MWithTypeFrom _ | MClone _ => False
  | MDrop k | MIntoVec k _ | MCall k _ => k = h
  | MAppend k k' => k = h \/ k' = h
  end.

(** Growing a buffer of capacity [cap] by the amortised policy of [Vec] so that it holds [need]
    elements of type [t] stays below the largest allocation. *)
Definition growth_fits (G : tenv) (t : tyid) (cap need : N) : Prop :=
  N.max (min_non_zero_cap (t_align (G t)) * t_align (G t)) (N.max (cap * 2) need * t_size (G t))
  <= max_alloc (t_align (G t)).

(** There is room for [need] elements, or the buffer can grow to have it. *)
Definition room (G : tenv) (t : tyid) (cap need : N) : Prop :=
  need <= cap \/ growth_fits G t cap need.

(** The one combination for which the growth of the untyped buffer goes wrong: three one-byte
    chunks per element, capacity 1, growing to 2 (std then picks 8 chunks, no multiple of 3). *)
Definition odd_growth (G : tenv) (t : tyid) (cap need : N) : Prop :=
  t_size (G t) = 3 /\ t_align (G t) = 1 /\ cap = 1 /\ need = 2.

(** A slice of a sized type that Rust can represent. *)
Definition slice_ok (G : tenv) (t : tyid) (xs : list payload) : Prop :=
  t_size (G t) <> 0 /\ lenN xs * t_size (G t) <= isize_max.

(** The [k]-element groups of a list, for [k > 0], without a shorter last one. *)
Inductive groups {A} (k : nat) : list A -> list (list A) -> Prop :=
| groups_end l : (List.length l < k)%nat -> groups k l []
| groups_one g l gs : List.length g = k -> groups k l gs -> groups k (g ++ l) (g :: gs).
