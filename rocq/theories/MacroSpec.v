(** * MacroSpec: the calls of [from_dyn!] and [into_dyn!] that a user writes. *)

From Verif Require Import MacroRules.
From Coq Require Import List String Bool.
Import ListNotations.
Local Open Scope string_scope.

(** The six containers of the crate, src/lib.rs:66-87, 127-148, and whether each owns its elements. *)
Inductive container := CSlice | CSliceMut | CVecDyn | CSliceCopy | CSliceCopyMut | CVecCopy.
Definition name_of (c : container) : string :=
  match c with
  | CSlice => "Slice" | CSliceMut => "SliceMut" | CVecDyn => "VecDyn"
  | CSliceCopy => "SliceCopy" | CSliceCopyMut => "SliceCopyMut" | CVecCopy => "VecCopy"
  end.
Definition owned (c : container) : bool := match c with CVecDyn | CVecCopy => true | _ => false end.

(** A path as the user writes it: a name, then [:: name] any number of times. *)
Record upath := UPath { first : string; others : list string }.
Definition names (p : upath) : list string := first p :: others p.
Definition legal (p : upath) : Prop := forall s, In s (names p) -> reserved s = false.
Definition tokens (p : upath) : list tok :=
  Id (first p) :: flat_map (fun s => [P "::"; Id s]) (others p).

(** [from_dyn![C<dyn trait as vtable>]] and [into_dyn![C<dyn trait>]]. *)
Definition from_call (c : container) (tr vt : upath) : list tok :=
  [Id (name_of c); P "<"; Id "dyn"] ++ tokens tr ++ [Id "as"] ++ tokens vt ++ [P ">"].
Definition into_call (c : container) (tr : upath) : list tok :=
  [Id (name_of c); P "<"; Id "dyn"] ++ tokens tr ++ [P ">"].

(** A result is a function, for container [c], with variable [x] filled in with the path [p]. *)
Definition is_path (f : option frag) (p : upath) : Prop :=
  f = Some (FPath (names p)) \/ (others p = [] /\ f = Some (FIdent (first p))).
