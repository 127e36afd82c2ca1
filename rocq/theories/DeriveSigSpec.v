(** * DeriveSigSpec: the words used in the properties of [dync_trait_method].

    Nothing here models code. *)

From Verif Require Export DeriveSig.
From Verif Require Import Base Derive.
Local Open Scope string_scope.
Local Open Scope list_scope.

(** The types [s], [[std::mem::MaybeUninit<u8>]], [Box<t>] and [Self]. *)
Definition plain (s : string) : sty := YPath None false [(s, [])].
Definition bytes_type : sty :=
  YSlice (YPath None false [("std", []); ("mem", []); ("MaybeUninit", [plain "u8"])]).
Definition boxed (t : sty) : sty := YPath None false [("Box", [t])].
Definition self_type : sty := plain "Self".

(** [part p t]: the type [p] occurs in the type expression [t] (types in trait bounds aside). *)
Inductive part (p : sty) : sty -> Prop :=
| part_self : part p p
| part_array e : part p e -> part p (YArray e)
| part_input ins out e : In e ins -> part p e -> part p (YBareFn ins out)
| part_output ins e : part p e -> part p (YBareFn ins (Some e))
| part_group e : part p e -> part p (YGroup e)
| part_paren e : part p e -> part p (YParen e)
| part_qself q lead segs : part p q -> part p (YPath (Some q) lead segs)
| part_arg q lead segs s args e : In (s, args) segs -> In e args -> part p e -> part p (YPath q lead segs)
| part_ptr m e : part p e -> part p (YPtr m e)
| part_ref m e : part p e -> part p (YRef m e)
| part_slice e : part p e -> part p (YSlice e)
| part_tuple es e : In e es -> part p e -> part p (YTuple es).

(** The type mentions the name [s]: as a type [s] or at the start of a path [s::..]. *)
Definition mentions (s : string) (t : sty) : Prop :=
  exists args rest, part (YPath None false ((s, args) :: rest)) t.

(** A type put together from others by an array, a slice, a tuple or a function pointer. *)
Definition composite (t : sty) : Prop :=
  match t with
  | YArray _ | YSlice _ | YTuple _ | YBareFn _ _ => True
  | _ => False
  end.

(** [made_of p t]: the path [p] occurs in [t], other than as a generic argument or self type of
    another path. *)
Inductive made_of (p : sty) : sty -> Prop :=
| made_self : made_of p p
| made_array e : made_of p e -> made_of p (YArray e)
| made_input ins out e : In e ins -> made_of p e -> made_of p (YBareFn ins out)
| made_output ins e : made_of p e -> made_of p (YBareFn ins (Some e))
| made_group e : made_of p e -> made_of p (YGroup e)
| made_paren e : made_of p e -> made_of p (YParen e)
| made_ptr m e : made_of p e -> made_of p (YPtr m e)
| made_ref m e : made_of p e -> made_of p (YRef m e)
| made_slice e : made_of p e -> made_of p (YSlice e)
| made_tuple es e : In e es -> made_of p e -> made_of p (YTuple es).

(** A path, a reference or pointer to a path, or one of these in parentheses; the path is [p]. *)
Inductive direct (p : sty) : sty -> Prop :=
| direct_path lead segs : p = YPath None lead segs -> direct p p
| direct_ref m lead segs : p = YPath None lead segs -> direct p (YRef m p)
| direct_ptr m lead segs : p = YPath None lead segs -> direct p (YPtr m p)
| direct_paren t : direct p t -> direct p (YParen t).

(** The byte forms of [Self], [&Self], [&mut Self], [*const Self] ... *)
Inductive self_bytes : sty -> sty -> Prop :=
| sb_self : self_bytes self_type (boxed bytes_type)
| sb_ref m : self_bytes (YRef m self_type) (YRef m bytes_type)
| sb_ptr m : self_bytes (YPtr m self_type) (YPtr m bytes_type)
| sb_paren t t' : self_bytes t t' -> self_bytes (YParen t) (YParen t').

(** The forms of [T], [&T] ... for a parameter [T: bounds]. *)
Inductive param_object (s : string) (b : list bound) : sty -> sty -> Prop :=
| po_owned : param_object s b (plain s) (boxed (YObject b))
| po_ref m : param_object s b (YRef m (plain s)) (YRef m (YObject b))
| po_ptr m : param_object s b (YPtr m (plain s)) (YPtr m (YObject b))
| po_paren t t' : param_object s b t t' -> param_object s b (YParen t) (YParen t').

(** Some bound is a trait. *)
Definition has_trait_bound (b : list bound) : Prop := exists l m p, In (BTrait l m p) b.

(** The parameter [s: bounds] is declared, in the simple form [<.., s: bounds, ..>]. *)
Definition declares (sg : signature) (s : string) (b : list bound) : Prop :=
  In (GType false s true b false) (sg_params sg).
(** All parameters are type parameters declared in this form, with a trait among the bounds, no two
    have the same name, and there is no where clause. *)
Definition simple_params (sg : signature) : Prop :=
  NoDup (map (fun p => match p with GType _ s _ _ _ => s | _ => "" end) (sg_params sg)) /\
  (forall p, In p (sg_params sg) -> exists s b, p = GType false s true b false /\ has_trait_bound b) /\
  sg_where sg = [].

(** How [t] is to be written in the byte signature. *)
Inductive byte_form (sg : signature) : sty -> sty -> Prop :=
| bf_self t t' : self_bytes t t' -> byte_form sg t t'
| bf_param s b t t' : declares sg s b -> param_object s b t t' -> byte_form sg t t'
| bf_same p t : direct p t -> ~ mentions "Self" t -> (forall s b, declares sg s b -> ~ mentions s t) ->
    byte_form sg t t.
Inductive byte_arg (sg : signature) : fn_arg -> fn_arg -> Prop :=
| ba_ref m : byte_arg sg (AReceiver true m) (ATyped "_self_" (YRef m bytes_type))
| ba_value : byte_arg sg (AReceiver false false) (ATyped "_self_" (boxed bytes_type))
| ba_typed x t t' : byte_form sg t t' -> byte_arg sg (ATyped x t) (ATyped x t').
Inductive byte_output (sg : signature) : option sty -> option sty -> Prop :=
| bo_unit : byte_output sg None (Some (YTuple []))
| bo_type t t' : byte_form sg t t' -> byte_output sg (Some t) (Some t').

(** An ordinary function: not [const], [async], [extern] or variadic. *)
Definition ordinary (sg : signature) : Prop :=
  sg_const sg = false /\ sg_async sg = false /\ sg_abi sg = false /\ sg_variadic sg = false.

(** [several t]: the type is written with a [+]: [dyn A + B] or [impl A + B]. *)
Definition several (t : sty) : Prop := exists b, (t = YObject b \/ t = YImpl b) /\ (2 <= List.length b)%nat.
(** The Rust grammar takes no such type directly after [&] or [*]: [&dyn A + B] is an error. *)
Definition readable (t : sty) : Prop :=
  forall m e, part (YRef m e) t \/ part (YPtr m e) t -> ~ several e.
(** The types written in a signature, those of [self] and of bounds aside. *)
Definition written_in (t : sty) (sg : signature) : Prop :=
  (exists x, In (ATyped x t) (sg_inputs sg)) \/ sg_output sg = Some t.
