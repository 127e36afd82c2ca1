(** * DeriveAttrSpec: how a user writes the attributes of the macros. *)

From Verif Require Import Base Derive DeriveAttr.
Local Open Scope string_scope.
Local Open Scope list_scope.

(** [name] or [name = "value"] or [name = 5]. *)
Definition written_attr (a : attrib) : list atok :=
  AIdent (at_ident a) ::
  match at_value a with
  | VNone => []
  | VStr s => [AEq; AStr s]
  | VOther => [AEq; ALit]
  end.

(** [a, b, c], or [a, b, c,] if [trailing]. *)
Fixpoint written_attrs (attrs : list attrib) (trailing : bool) : list atok :=
  match attrs with
  | [] => []
  | [a] => written_attr a ++ (if trailing then [AComma] else [])
  | a :: r => written_attr a ++ AComma :: written_attrs r trailing
  end.

(** The attributes the macros document, in the form they expect. *)
Definition documented (a : attrib) : Prop :=
  a = Attrib "build_vtable_only" VNone \/
  (exists s, a = Attrib "dync_crate_name" (VStr s)) \/
  (exists s, a = Attrib "suffix" (VStr s)).

(** Everything the macros accept: the [=] may be missing, and it may stand without a value. *)
Inductive spelled_attr : list atok -> attrib -> Prop :=
| spelled_plain s (eq : bool) :
    spelled_attr (AIdent s :: (if eq then [AEq] else [])) (Attrib s VNone)
| spelled_str s (eq : bool) v :
    spelled_attr (AIdent s :: (if eq then [AEq] else []) ++ [AStr v]) (Attrib s (VStr v))
| spelled_lit s (eq : bool) :
    spelled_attr (AIdent s :: (if eq then [AEq] else []) ++ [ALit]) (Attrib s VOther).
Inductive spelled : list atok -> list attrib -> Prop :=
| spelled_none : spelled [] []
| spelled_last ts a : spelled_attr ts a -> spelled ts [a]
| spelled_more ts a ts' l : spelled_attr ts a -> spelled ts' l -> spelled (ts ++ AComma :: ts') (a :: l).
