(** * DeriveSem: what the generated items mean once compiled.

    The tables of src/traits.rs are written by hand in the same shape as the tables the macros
    generate, so they are given here as items of the same kind.  A program is a list of items: the
    library's and the generated ones.  [compiles] is the part of rustc's checking that depends on
    the macro: names resolve, implementations do not overlap, the methods of an implementation are
    the methods of the trait, fields, accessors, constructors and conversions have matching types,
    and the supertraits of every implemented accessor trait are implemented too. *)

From Verif Require Import Base Value Derive.
Local Open Scope string_scope.
Local Open Scope list_scope.

(** ** src/traits.rs as items *)

(** The module path of src/traits.rs in a program where the library is called [lib]. *)
Definition lib_mod (lib : string) : string := String.append lib "::traits::".

Definition lib_q (lib s : string) : qname := (lib_mod lib, s).

(** src/traits.rs:106-112: the function types. *)
Definition lib_fn_types : list string :=
  ["CloneFn"; "CloneFromFn"; "CloneIntoRawFn"; "EqFn"; "HashFn"; "FmtFn"; "DropFn"].

(** src/traits.rs:116-150: the accessor traits. *)
Definition lib_has_traits (lib : string) : list gen_item :=
  let q := lib_q lib in
  [ GHasTrait (q "HasDrop") false [] [("drop_fn", q "DropFn")];
    GHasTrait (q "HasClone") false []
      [("clone_fn", q "CloneFn"); ("clone_from_fn", q "CloneFromFn");
       ("clone_into_raw_fn", q "CloneIntoRawFn")];
    GHasTrait (q "HasHash") false [] [("hash_fn", q "HashFn")];
    GHasTrait (q "HasPartialEq") false [] [("eq_fn", q "EqFn")];
    GHasTrait (q "HasEq") false [q "HasPartialEq"] [];
    GHasTrait (q "HasDebug") false [] [("fmt_fn", q "FmtFn")];
    GHasTrait (q "HasSend") true [] [];
    GHasTrait (q "HasSync") true [] [] ].

(** src/traits.rs:152-221: the tables and their constructors. *)
Definition lib_table (lib name : string) (fields : list string) (exprs : list (string * string))
    : list gen_item :=
  [ GStruct (lib_q lib name) (map (lib_q lib) fields);
    GBuild "" (String.append lib "::", "VTable") (lib_q lib name)
           (map (fun e => (lib_q lib (fst e), snd e)) exprs) ].

Definition lib_tables (lib : string) : list gen_item :=
  lib_table lib "DropVTable" ["DropFn"] [("DropBytes", "drop_bytes")]
  ++ lib_table lib "CloneVTable" ["DropFn"; "CloneFn"; "CloneFromFn"; "CloneIntoRawFn"]
       [("DropBytes", "drop_bytes"); ("CloneBytes", "clone_bytes");
        ("CloneBytes", "clone_from_bytes"); ("CloneBytes", "clone_into_raw_bytes")]
  ++ lib_table lib "PartialEqVTable" ["DropFn"; "EqFn"]
       [("DropBytes", "drop_bytes"); ("PartialEqBytes", "eq_bytes")]
  ++ lib_table lib "EqVTable" ["DropFn"; "EqFn"]
       [("DropBytes", "drop_bytes"); ("PartialEqBytes", "eq_bytes")]
  ++ lib_table lib "HashVTable" ["DropFn"; "HashFn"]
       [("DropBytes", "drop_bytes"); ("HashBytes", "hash_bytes")]
  ++ lib_table lib "SendVTable" ["DropFn"] [("DropBytes", "drop_bytes")]
  ++ lib_table lib "SyncVTable" ["DropFn"] [("DropBytes", "drop_bytes")]
  ++ lib_table lib "DebugVTable" ["DropFn"; "FmtFn"]
       [("DropBytes", "drop_bytes"); ("DebugBytes", "fmt_bytes")].

(** src/traits.rs:223-282: the accessors of the library's tables. *)
Definition lib_accessors (lib : string) : list gen_item :=
  let q := lib_q lib in
  map (fun t => GHasImpl (q "HasDrop") (q t) false [HasMethod "drop_fn" (q "DropFn") 0])
      ["DropVTable"; "CloneVTable"; "PartialEqVTable"; "EqVTable"; "HashVTable"; "DebugVTable";
       "SendVTable"; "SyncVTable"]
  ++ [ GHasImpl (q "HasClone") (q "CloneVTable") false
         [HasMethod "clone_fn" (q "CloneFn") 1; HasMethod "clone_from_fn" (q "CloneFromFn") 2;
          HasMethod "clone_into_raw_fn" (q "CloneIntoRawFn") 3];
       GHasImpl (q "HasHash") (q "HashVTable") false [HasMethod "hash_fn" (q "HashFn") 1];
       GHasImpl (q "HasPartialEq") (q "PartialEqVTable") false [HasMethod "eq_fn" (q "EqFn") 1];
       GHasImpl (q "HasPartialEq") (q "EqVTable") false [HasMethod "eq_fn" (q "EqFn") 1];
       GHasImpl (q "HasEq") (q "EqVTable") false [];
       GHasImpl (q "HasDebug") (q "DebugVTable") false [HasMethod "fmt_fn" (q "FmtFn") 1] ].

(** src/traits.rs:106-282. *)
Definition lib_items (lib : string) : list gen_item :=
  lib_has_traits lib ++ lib_tables lib ++ lib_accessors lib.

(** ** Functions *)

(** The functions a table can hold for a type [t] (src/traits.rs:49-104), as in Value.v. *)
Inductive tfun : Type :=
| FDrop (p : drop_ptr) | FClone (p : clone_ptr) | FCloneFrom (p : clone_from_ptr)
| FCloneRaw (p : clone_raw_ptr) | FEq (p : eq_ptr) | FHash (p : hash_ptr) | FFmt (p : fmt_ptr).

(** src/traits.rs:14-104: what [<T as tr>::f] names, with its type (106-112). *)
Definition lib_fun (lib : string) (tr : qname) (f : string) (t : N) : option (tfun * qname) :=
  if fst tr =? lib_mod lib then
    let q := lib_q lib in
    if (snd tr =? "DropBytes") && (f =? "drop_bytes") then Some (FDrop (DropOf t), q "DropFn")
    else if (snd tr =? "CloneBytes") && (f =? "clone_bytes")
         then Some (FClone (CloneOf t), q "CloneFn")
    else if (snd tr =? "CloneBytes") && (f =? "clone_from_bytes")
         then Some (FCloneFrom (CloneFromOf t), q "CloneFromFn")
    else if (snd tr =? "CloneBytes") && (f =? "clone_into_raw_bytes")
         then Some (FCloneRaw (CloneRawOf t), q "CloneIntoRawFn")
    else if (snd tr =? "PartialEqBytes") && (f =? "eq_bytes") then Some (FEq (EqOf t), q "EqFn")
    else if (snd tr =? "HashBytes") && (f =? "hash_bytes") then Some (FHash (HashOf t), q "HashFn")
    else if (snd tr =? "DebugBytes") && (f =? "fmt_bytes") then Some (FFmt (FmtOf t), q "FmtFn")
    else None
  else None.

(** ** Meaning of items *)

Definition qname_eqb (a b : qname) : bool := (fst a =? fst b) && (snd a =? snd b).

(** The value of a table: the contents of its fields. *)
Definition table : Type := list tfun.

Fixpoint omap_list {A B} (f : A -> option B) (l : list A) : option (list B) :=
  match l with
  | [] => Some []
  | x :: l' =>
      match f x, omap_list f l' with
      | Some y, Some ys => Some (y :: ys)
      | _, _ => None
      end
  end.

(** The field types of a struct. *)
Fixpoint struct_fields (its : list gen_item) (q : qname) : option (list qname) :=
  match its with
  | [] => None
  | GStruct q' fs :: its' => if qname_eqb q q' then Some fs else struct_fields its' q
  | _ :: its' => struct_fields its' q
  end.

(** All accessor methods a table type has. *)
Fixpoint accessors (its : list gen_item) (q : qname) : list has_method :=
  match its with
  | [] => []
  | GHasImpl _ q' _ ms :: its' => if qname_eqb q q' then ms ++ accessors its' q else accessors its' q
  | _ :: its' => accessors its' q
  end.

(** Method call resolution by name. *)
Definition accessor (its : list gen_item) (q : qname) (name : string) : option has_method :=
  find (fun h => hm_name h =? name) (accessors its q).

Fixpoint build_exprs (its : list gen_item) (q : qname) : option (list (qname * string)) :=
  match its with
  | [] => None
  | GBuild _ _ q' es :: its' => if qname_eqb q q' then Some es else build_exprs its' q
  | _ :: its' => build_exprs its' q
  end.

Fixpoint from_exprs (its : list gen_item) (a b : qname) : option (list string) :=
  match its with
  | [] => None
  | GFrom a' b' _ es :: its' =>
      if qname_eqb a a' && qname_eqb b b' then Some es else from_exprs its' a b
  | _ :: its' => from_exprs its' a b
  end.

(** [<q as VTable<T>>::build_vtable()]. *)
Definition build (lib : string) (its : list gen_item) (q : qname) (t : N) : option table :=
  match build_exprs its q with
  | None => None
  | Some es => omap_list (fun e => option_map fst (lib_fun lib (fst e) (snd e) t)) es
  end.

(** [tbl.name()], dereferenced, for a table [tbl] of type [q]. *)
Definition call_accessor (its : list gen_item) (q : qname) (tbl : table) (name : string)
    : option tfun :=
  match accessor its q name with
  | None => None
  | Some h => nth_error tbl (N.to_nat (hm_idx h))
  end.

(** [b::from(tbl)] for a table [tbl] of type [a]. *)
Definition convert (its : list gen_item) (a b : qname) (tbl : table) : option table :=
  match from_exprs its a b with
  | None => None
  | Some es => omap_list (call_accessor its a tbl) es
  end.

(** Is the accessor trait [h] implemented for the table [q]? *)
Definition implements (its : list gen_item) (h q : qname) : bool :=
  existsb (fun i => match i with
                    | GHasImpl h' q' _ _ => qname_eqb h h' && qname_eqb q q'
                    | _ => false
                    end) its.

(** ** Type checking *)

Fixpoint has_trait (its : list gen_item) (h : qname)
    : option (bool * list qname * list (string * qname)) :=
  match its with
  | [] => None
  | GHasTrait h' u deps ms :: its' => if qname_eqb h h' then Some (u, deps, ms) else has_trait its' h
  | _ :: its' => has_trait its' h
  end.

Fixpoint list_eqb {A B} (eqb : A -> B -> bool) (a : list A) (b : list B) : bool :=
  match a, b with
  | [], [] => true
  | x :: a', y :: b' => eqb x y && list_eqb eqb a' b'
  | _, _ => false
  end.

Definition opt_qname_eqb (a b : option qname) : bool :=
  match a, b with Some x, Some y => qname_eqb x y | _, _ => false end.

Definition item_ok (lib : string) (its : list gen_item) (i : gen_item) : bool :=
  match i with
  | GHasTrait _ _ deps _ =>
      forallb (fun h => match has_trait its h with Some _ => true | None => false end) deps
  | GHasImpl h q u ms =>
      match has_trait its h, struct_fields its q with
      | Some (u', deps, sig), Some fs =>
          Bool.eqb u u'
          && list_eqb (fun m s => (hm_name m =? fst s) && qname_eqb (hm_ty m) (snd s)) ms sig
          && forallb (fun m => opt_qname_eqb (nth_error fs (N.to_nat (hm_idx m))) (Some (hm_ty m))) ms
          && forallb (fun h' => implements its h' q) deps
      | _, _ => false
      end
  | GDowncast h =>
      match has_trait its h with
      | Some (_, deps, _) => existsb (qname_eqb (lib_mod lib, "HasDrop")) deps
      | None => false
      end
  | GStruct _ fs =>
      forallb (fun f => (fst f =? lib_mod lib) && existsb (String.eqb (snd f)) lib_fn_types) fs
  | GBuild _ vt q es =>
      qname_eqb vt (String.append lib "::", "VTable")
      && match struct_fields its q with
         | Some fs => list_eqb (fun e f => match lib_fun lib (fst e) (snd e) 0 with
                                           | Some (_, ty) => qname_eqb ty f
                                           | None => false
                                           end) es fs
         | None => false
         end
  | GFrom a b use_ es =>
      (use_ =? lib_mod lib)
      && match struct_fields its b with
         | Some fs => list_eqb (fun e f => match accessor its a e with
                                           | Some h => qname_eqb (hm_ty h) f
                                           | None => false
                                           end) es fs
         | None => false
         end
  end.

(** What an item introduces, for the check that nothing is defined or implemented twice. *)
Inductive defines : Type :=
| DTrait (h : qname) | DImpl (h q : qname) | DDowncast (h : qname) | DStruct (q : qname)
| DBuild (q : qname) | DFrom (a b : qname).

Definition item_defines (i : gen_item) : defines :=
  match i with
  | GHasTrait h _ _ _ => DTrait h
  | GHasImpl h q _ _ => DImpl h q
  | GDowncast h => DDowncast h
  | GStruct q _ => DStruct q
  | GBuild _ _ q _ => DBuild q
  | GFrom a b _ _ => DFrom a b
  end.

(** The checks of rustc that depend on the macro, on a program made of the library and [its]. *)
Definition compiles (lib : string) (its : list gen_item) : Prop :=
  NoDup (map item_defines (lib_items lib ++ its))
  /\ forallb (item_ok lib (lib_items lib ++ its)) its = true.

(** ** Generated tables as tables of [VecDyn] and [Value] *)

(** A value of the table type [q] of the program [its]. *)
Record gtable (lib : string) (its : list gen_item) (q : qname) : Type := GTable { g_fields : table }.
Arguments GTable {lib its q}.
Arguments g_fields {lib its q}.

Section Gtable.
Context {lib : string} {its : list gen_item} {q : qname}.

Definition g_call (v : gtable lib its q) (name : string) : option tfun :=
  call_accessor its q (g_fields v) name.

(** The accessors used by the methods of [VecDyn] and [Value].  The second case of each does not
    arise for a table that has the accessor, and rustc rejects the call for one that has not. *)
Global Instance gtable_drop : HasDrop (gtable lib its q) :=
  {| drop_fn v := match g_call v "drop_fn" with Some (FDrop p) => p | _ => DropCopy end |}.
Global Instance gtable_clone : HasClone (gtable lib its q) :=
  {| clone_fn v := match g_call v "clone_fn" with Some (FClone p) => p | _ => CloneOf 0 end;
     clone_from_fn v :=
       match g_call v "clone_from_fn" with Some (FCloneFrom p) => p | _ => CloneFromOf 0 end;
     clone_into_raw_fn v :=
       match g_call v "clone_into_raw_fn" with Some (FCloneRaw p) => p | _ => CloneRawOf 0 end |}.
Global Instance gtable_eq : HasPartialEq (gtable lib its q) :=
  {| eq_fn v := match g_call v "eq_fn" with Some (FEq p) => p | _ => EqOf 0 end |}.
Global Instance gtable_hash : HasHash (gtable lib its q) :=
  {| hash_fn v := match g_call v "hash_fn" with Some (FHash p) => p | _ => HashOf 0 end |}.
Global Instance gtable_fmt : HasDebug (gtable lib its q) :=
  {| fmt_fn v := match g_call v "fmt_fn" with Some (FFmt p) => p | _ => FmtOf 0 end |}.

(** One function pointer of 8 bytes per field. *)
Global Instance gtable_build : VTable (gtable lib its q) :=
  {| build_vtable t := GTable (match build lib its q t with Some tbl => tbl | None => [] end) |}.
Global Instance gtable_sized : Sized (gtable lib its q) :=
  {| table_layout := (8 * match struct_fields its q with Some fs => lenN fs | None => 0 end, 8) |}.

End Gtable.
