(** * DeriveSig: the attribute [dync_trait_method] of dync-derive, which rewrites the signature of a
    trait method so that it works on bytes.

    Types are the syntax trees of syn 1.0.  Left out: spans, attributes, the length expression of
    arrays, the lifetimes of references, the ABI of function pointers, and generic arguments that are
    not types.  None of these is looked at by the code modelled here except to copy it. *)

From Verif Require Import Base Derive.
Local Open Scope string_scope.
Local Open Scope list_scope.

(** [syn::Type].  A path is its self type ([<T as ..>::]), whether it starts with [::], and its
    segments with their generic arguments. *)
Inductive sty : Type :=
| YArray (elem : sty)
| YBareFn (ins : list sty) (out : option sty)
| YGroup (elem : sty)
| YImpl (bounds : list bound)
| YParen (elem : sty)
| YPath (qself : option sty) (lead : bool) (segs : list (string * list sty))
| YPtr (mut : bool) (elem : sty)
| YRef (mut : bool) (elem : sty)
| YSlice (elem : sty)
| YObject (bounds : list bound)          (* dyn A + B *)
| YTuple (elems : list sty)
| YOther.                                 (* infer, never, macro, verbatim *)

(** A type written as one name, and the byte types of the code. *)
Definition yname (s : string) : sty := YPath None false [(s, [])].
Definition y_bytes : sty :=
  YSlice (YPath None false [("std", []); ("mem", []); ("MaybeUninit", [yname "u8"])]).
Definition y_box (t : sty) : sty := YPath None false [("Box", [t])].

(** dync-derive/src/lib.rs:11: GenericsMap; the newest entry of a key counts. *)
Definition generics_map : Type := list (string * list bound).
Fixpoint gm_get (s : string) (g : generics_map) : option (list bound) :=
  match g with
  | [] => None
  | (k, b) :: g' => if s =? k then Some b else gm_get s g'
  end.
Definition gm_insert (s : string) (b : list bound) (g : generics_map) : generics_map := (s, b) :: g.

(** syn: parsing [dyn #bounds] fails unless one of the bounds is a trait. *)
Definition dyn_of (b : list bound) : outcome sty :=
  if existsb (fun x => match x with BLifetime => false | _ => true end) b then Ret (YObject b)
  else Panic PAssert.

(** dync-derive/src/lib.rs:1145-1182: check_for_unsupported_self.  Note the assertion on plain
    names, which is the wrong way round.  *)
Definition check_path (lead : bool) (segs : list (string * list sty)) : outcome unit :=
  match lead, segs with
  | false, [(s, args)] =>
      assert_ (match args with [] => s =? "Self" | _ => false end)
  | _, _ => Ret tt
  end.
Fixpoint check_self (t : sty) : outcome unit :=
  let fix check_all (l : list sty) : outcome unit :=
    match l with
    | [] => Ret tt
    | x :: l' => let! _ := check_self x in check_all l'
    end in
  match t with
  | YArray e | YGroup e | YParen e | YPtr _ e | YRef _ e | YSlice e => check_self e
  | YBareFn ins out =>
      let! _ := check_all ins in
      match out with Some o => check_self o | None => Ret tt end
  | YPath q lead segs =>
      let! _ := assert_ (match q with None => true | Some _ => false end) in
      check_path lead segs
  | YTuple es => check_all es
  | YImpl _ | YObject _ | YOther => Ret tt
  end.

(** dync-derive/src/lib.rs:1019-1055: check_for_unsupported_generics has the same text, the map of
    generics being passed along but never used. *)
Definition check_generics (t : sty) (g : generics_map) : outcome unit := check_self t.

(** dync-derive/src/lib.rs:1114-1131: self_type_path_into. *)
Definition self_path_into (q : option sty) (lead : bool) (segs : list (string * list sty)) (into : sty)
  : outcome sty :=
  let! _ := assert_ (match q with None => true | Some _ => false end) in
  match lead, segs with
  | false, [(s, [])] => if s =? "Self" then Ret into else Ret (YPath q lead segs)
  | _, _ => Ret (YPath q lead segs)
  end.

(** dync-derive/src/lib.rs:1134-1142: self_to_byte_slice. *)
Definition self_to_byte_slice (t : sty) : outcome sty :=
  match t with
  | YPath q lead segs => self_path_into q lead segs y_bytes
  | other => Ret other
  end.

(** dync-derive/src/lib.rs:1057-1111: type_to_bytes. *)
Fixpoint type_to_bytes (t : sty) : outcome sty :=
  match t with
  | YImpl b => Ret (YObject b)
  | YParen e => let! e' := type_to_bytes e in Ret (YParen e')
  | YPath q lead segs => self_path_into q lead segs (y_box y_bytes)
  | YPtr m e => let! e' := self_to_byte_slice e in Ret (YPtr m e')
  | YRef m e => let! e' := self_to_byte_slice e in Ret (YRef m e')
  | other => let! _ := check_self other in Ret other
  end.

(** dync-derive/src/lib.rs:990-1009: process_generic_type_path.  A self type is not looked at. *)
Definition generic_path (q : option sty) (lead : bool) (segs : list (string * list sty))
  (g : generics_map) (owned : bool) : outcome sty :=
  match lead, segs with
  | false, [(s, [])] =>
      match gm_get s g with
      | Some b => let! d := dyn_of b in Ret (if owned then y_box d else d)
      | None => Ret (YPath q lead segs)
      end
  | _, _ => Ret (YPath q lead segs)
  end.

(** dync-derive/src/lib.rs:1012-1017: generic_ref_to_trait_object. *)
Definition generic_ref (t : sty) (g : generics_map) : outcome sty :=
  match t with
  | YPath q lead segs => generic_path q lead segs g false
  | other => Ret other
  end.

(** dync-derive/src/lib.rs:965-987: process_generics. *)
Fixpoint process_generics (t : sty) (g : generics_map) : outcome sty :=
  match t with
  | YParen e => let! e' := process_generics e g in Ret (YParen e')
  | YPath q lead segs => generic_path q lead segs g true
  | YPtr m e => let! e' := generic_ref e g in Ret (YPtr m e')
  | YRef m e => let! e' := generic_ref e g in Ret (YRef m e')
  | other => let! _ := check_generics other g in Ret other
  end.

(** ** Signatures *)

(** [syn::GenericParam]: a type parameter with whether it has attributes, its name, whether it has a
    colon, its bounds, and whether it has a default. *)
Inductive gparam : Type :=
| GType (attrs : bool) (name : string) (colon : bool) (bounds : list bound) (default : bool)
| GLifetime
| GConst.
(** [syn::WherePredicate]: a bounded type, with whether it has [for<..>]. *)
Inductive wpred : Type :=
| WType (lifetimes : bool) (ty : sty) (bounds : list bound)
| WLifetime
| WEq.
(** [syn::FnArg]: [self] with whether it is a reference and mutable; or a pattern (here a name) with
    a type. *)
Inductive fn_arg : Type :=
| AReceiver (reference : bool) (mut : bool)
| ATyped (pat : string) (ty : sty).
(** [syn::Signature]. *)
Record signature : Type := Sig {
  sg_const : bool;
  sg_async : bool;
  sg_unsafe : bool;
  sg_abi : bool;
  sg_ident : string;
  sg_params : list gparam;
  sg_where : list wpred;
  sg_inputs : list fn_arg;
  sg_variadic : bool;
  sg_output : option sty
}.

(** One turn of the loop in dync-derive/src/lib.rs:837-860. *)
Definition add_param (g : generics_map) (p : gparam) : outcome generics_map :=
  match p with
  | GType attrs name colon bounds default =>
      let! _ := assert_ (negb attrs) in
      let! _ := assert_ colon in
      let! _ := assert_ (negb default) in
      Ret (gm_insert name bounds g)
  | GLifetime | GConst => Panic PAssert
  end.
(** One turn of the loop in dync-derive/src/lib.rs:862-899: a plain name fails the assertions on the
    number of segments and on the arguments, which are the wrong way round. *)
Definition add_pred (g : generics_map) (p : wpred) : outcome generics_map :=
  match p with
  | WType lifetimes ty bounds =>
      let! _ := assert_ (negb lifetimes) in
      match ty with
      | YPath q lead segs =>
          let! _ := assert_ (match q with None => true | Some _ => false end) in
          let! _ := assert_ (negb lead) in
          let! _ := assert_ (match segs with [_] => false | _ => true end) in
          match segs with
          | [] => Panic PAssert                         (* first().unwrap() *)
          | (s, args) :: _ =>
              let! _ := assert_ (match args with [] => false | _ => true end) in
              Ret (gm_insert s bounds g)
          end
      | _ => Ret g
      end
  | WLifetime => Panic PAssert
  | WEq => Ret g
  end.

Fixpoint fold_out {A B} (f : B -> A -> outcome B) (l : list A) (b : B) : outcome B :=
  match l with
  | [] => Ret b
  | x :: l' => let! b' := f b x in fold_out f l' b'
  end.
Fixpoint map_out {A B} (f : A -> outcome B) (l : list A) : outcome (list B) :=
  match l with
  | [] => Ret []
  | x :: l' => let! y := f x in let! ys := map_out f l' in Ret (y :: ys)
  end.

(** dync-derive/src/lib.rs:901-938: one argument.  [mut self] becomes the type [mut Box<..>], which
    does not parse. *)
Definition fn_arg_bytes (g : generics_map) (a : fn_arg) : outcome fn_arg :=
  match a with
  | AReceiver true m => Ret (ATyped "_self_" (YRef m y_bytes))
  | AReceiver false true => Panic PAssert
  | AReceiver false false => Ret (ATyped "_self_" (y_box y_bytes))
  | ATyped p t =>
      let! t1 := process_generics t g in
      let! t2 := type_to_bytes t1 in
      Ret (ATyped p t2)
  end.

(** dync-derive/src/lib.rs:815-960: dync_fn_sig. *)
Definition dync_fn_sig (s : signature) : outcome signature :=
  let! _ := assert_ (negb (sg_const s)) in
  let! _ := assert_ (negb (sg_async s)) in
  let! _ := assert_ (negb (sg_abi s)) in
  let! _ := assert_ (negb (sg_variadic s)) in
  let! g := fold_out add_param (sg_params s) [] in
  let! g' := fold_out add_pred (sg_where s) g in
  let! ins := map_out (fn_arg_bytes g') (sg_inputs s) in
  let! out := match sg_output s with
              | Some t => let! t1 := process_generics t g' in type_to_bytes t1
              | None => Ret (YTuple [])
              end in
  Ret (Sig (sg_const s) (sg_async s) true (sg_abi s) (sg_ident s ++ "_bytes") [] [] ins (sg_variadic s)
           (Some out)).
