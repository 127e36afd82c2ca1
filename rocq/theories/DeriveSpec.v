(** * DeriveSpec: what a user expects of a hierarchy of traits, without the macro.

    A hierarchy is a list of trait declarations.  This file says which trait each bound names, when
    a trait inherits another, and which functions a table should offer. *)

From Verif Require Import Base Value Derive DeriveSem.
From Coq Require Import Ascii.
Local Open Scope string_scope.
Local Open Scope list_scope.

(** The ways of writing the standard traits that the macros know. *)
Definition known_paths : list (tpath * trait) :=
  [ (plain_path ["Drop"], TDrop); (plain_path ["Clone"], TClone);
    (plain_path ["PartialEq"], TPartialEq); (plain_path ["Eq"], TEq);
    (plain_path ["std"; "hash"; "Hash"], THash); (plain_path ["std"; "fmt"; "Debug"], TDebug);
    (plain_path ["Send"], TSend); (plain_path ["Sync"], TSync) ].

(** The ways of writing the standard traits that Rust accepts (the plain names of [Hash] and [Debug]
    after the usual imports). *)
Definition std_paths : list (tpath * trait) :=
  [ (plain_path ["Drop"], TDrop); (plain_path ["std"; "ops"; "Drop"], TDrop);
    (plain_path ["Clone"], TClone); (plain_path ["std"; "clone"; "Clone"], TClone);
    (plain_path ["PartialEq"], TPartialEq); (plain_path ["std"; "cmp"; "PartialEq"], TPartialEq);
    (plain_path ["Eq"], TEq); (plain_path ["std"; "cmp"; "Eq"], TEq);
    (plain_path ["Hash"], THash); (plain_path ["std"; "hash"; "Hash"], THash);
    (plain_path ["Debug"], TDebug); (plain_path ["std"; "fmt"; "Debug"], TDebug);
    (plain_path ["Send"], TSend); (plain_path ["std"; "marker"; "Send"], TSend);
    (plain_path ["Sync"], TSync); (plain_path ["std"; "marker"; "Sync"], TSync) ].

(** The trait a bound names: lifetimes, [?Trait], [for<'a> Trait] and generic traits name none. *)
Inductive names : bound -> trait -> Prop :=
| names_known p t : In (p, t) known_paths -> names (BTrait false false p) t
| names_user p :
    ~ In p (map fst known_paths) ->
    (forall s args, In (s, args) (tp_segs p) -> args = false) ->
    names (BTrait false false p) (TCustom (path_string p)).

(** [inherits its a b]: [b] is a direct or indirect supertrait of [a]. *)
Inductive inherits (its : list item_trait) : trait -> trait -> Prop :=
| inherits_bound it b t :
    In it its -> In b (it_bounds it) -> names b t -> inherits its (TCustom (it_name it)) t
| inherits_eq : inherits its TEq TPartialEq
| inherits_trans a b c : inherits its a b -> inherits its b c -> inherits its a c.

(** Names the macros take for a standard trait. *)
Definition reserved : list string :=
  ["Drop"; "std::ops::Drop"; "Clone"; "std::clone::Clone"; "PartialEq"; "std::cmp::PartialEq";
   "Eq"; "std::cmp::Eq"; "Hash"; "std::hash::Hash"; "Debug"; "std::fmt::Debug";
   "Send"; "std::marker::Send"; "Sync"; "std::marker::Sync"].

(** A module of trait declarations the Rust compiler accepts (distinct names, no cycles), none of
    them named like a standard trait. *)
Record hierarchy (its : list item_trait) : Prop := Hierarchy {
  h_distinct : NoDup (map it_name its);
  h_names : forall it, In it its -> ~ In (it_name it) reserved;
  h_acyclic : forall t, ~ inherits its t t
}.

(** The functions of the standard traits: accessor, trait, and the function itself. *)
Definition functions : list (string * trait * (N -> tfun)) :=
  [ ("drop_fn", TDrop, fun t => FDrop (DropOf t));
    ("clone_fn", TClone, fun t => FClone (CloneOf t));
    ("clone_from_fn", TClone, fun t => FCloneFrom (CloneFromOf t));
    ("clone_into_raw_fn", TClone, fun t => FCloneRaw (CloneRawOf t));
    ("eq_fn", TPartialEq, fun t => FEq (EqOf t));
    ("hash_fn", THash, fun t => FHash (HashOf t));
    ("fmt_fn", TDebug, fun t => FFmt (FmtOf t)) ].

(** The standard traits and how the library names their tables and accessor traits. *)
Definition std_traits : list (trait * string) :=
  [ (TDrop, "Drop"); (TClone, "Clone"); (TPartialEq, "PartialEq"); (TEq, "Eq"); (THash, "Hash");
    (TDebug, "Debug"); (TSend, "Send"); (TSync, "Sync") ].

(** [named lib its t p s]: the trait [t] is a standard one or declared in [its]; its table and
    accessor trait are [s ++ "VTable"] and ["Has" ++ s] in the module [p]. *)
Inductive named (lib : string) (its : list item_trait) : trait -> string -> string -> Prop :=
| named_std t s : In (t, s) std_traits -> named lib its t (lib_mod lib) s
| named_user it : In it its -> named lib its (TCustom (it_name it)) "" (it_name it).

Definition vtable_of (p s : string) : qname := (p, String.append s "VTable").
Definition has_of (p s : string) : qname := (p, String.append "Has" s).

(** The supertraits a table should offer: those inherited, and [Drop]. *)
Definition offered (its : list item_trait) (a b : trait) : Prop := b = TDrop \/ inherits its a b.

(** [setting attrs key dflt v]: the macro attributes [attrs] say [key = "v"], the last mention
    counting, or do not mention [key] and [v] is the default. *)
Definition setting (attrs : list attrib) (key dflt v : string) : Prop :=
  (exists l1 l2, attrs = l1 ++ Attrib key (VStr v) :: l2
                 /\ forall s, ~ In (Attrib key (VStr s)) l2)
  \/ (v = dflt /\ forall s, ~ In (Attrib key (VStr s)) attrs).

(** A name that can stand before [::traits::DropFn]: an identifier that is not a keyword, or [crate],
    [self] or [super].  Characters beyond ASCII count as letters. *)
Definition letter (c : ascii) : Prop :=
  let n := N_of_ascii c in (65 <= n <= 90 \/ 97 <= n <= 122 \/ 128 <= n)%N.
Definition digit (c : ascii) : Prop := (48 <= N_of_ascii c <= 57)%N.
(** The keywords of Rust 2018 but those three, and [_]. *)
Definition no_path : list string :=
  ["as"; "break"; "const"; "continue"; "else"; "enum"; "extern"; "false"; "fn"; "for"; "if"; "impl"; "in"; "let";
   "loop"; "match"; "mod"; "move"; "mut"; "pub"; "ref"; "return"; "Self"; "static"; "struct"; "trait"; "true";
   "type"; "unsafe"; "use"; "where"; "while"; "async"; "await"; "dyn";
   (* reserved *)
   "abstract"; "become"; "box"; "do"; "final"; "macro"; "override"; "priv"; "typeof"; "unsized"; "virtual";
   "yield"; "try"; "_"].
Definition path_start (s : string) : Prop :=
  ~ In s no_path /\
  exists c r, list_ascii_of_string s = c :: r /\
    (letter c \/ c = "_"%char) /\ Forall (fun c => letter c \/ digit c \/ c = "_"%char) r.

(** The macro attributes say that the library is called [lib]. *)
Definition crate_named (attrs : list attrib) (lib : string) : Prop :=
  setting attrs "dync_crate_name" "dync" lib /\ path_start lib.

(** When rustc accepts a generated item in the program [its]: every name it mentions exists and has
    the type that is asked for. *)
Inductive typed (lib : string) (its : list gen_item) : gen_item -> Prop :=
| typed_trait h u deps ms :
    (forall d, In d deps -> exists x, has_trait its d = Some x) ->
    typed lib its (GHasTrait h u deps ms)
| typed_impl h q u ms deps sig fields :
    has_trait its h = Some (u, deps, sig) -> struct_fields its q = Some fields ->
    (* the methods of the trait, no more and no fewer *)
    Forall2 (fun m s => s = (hm_name m, hm_ty m)) ms sig ->
    (* each borrows a field of its return type *)
    Forall (fun m => nth_error fields (N.to_nat (hm_idx m)) = Some (hm_ty m)) ms ->
    (* the supertraits are implemented too *)
    Forall (fun d => implements its d q = true) deps ->
    typed lib its (GHasImpl h q u ms)
| typed_downcast h u deps sig :
    has_trait its h = Some (u, deps, sig) ->
    (* [impl_downcast!] needs [Downcast], which only [HasDrop] requires (src/traits.rs:116) *)
    In (has_of (lib_mod lib) "Drop") deps ->
    typed lib its (GDowncast h)
| typed_struct q fields :
    Forall (fun f => exists n, In n lib_fn_types /\ f = (lib_mod lib, n)) fields ->
    typed lib its (GStruct q fields)
| typed_build tr q es fields :
    struct_fields its q = Some fields ->
    (* each initialiser is a function of the library of the field's type *)
    Forall2 (fun e f => exists mk, lib_fun lib (fst e) (snd e) 0 = Some (mk, f)) es fields ->
    typed lib its (GBuild tr (String.append lib "::", "VTable") q es)
| typed_from a b es fields :
    struct_fields its b = Some fields ->
    (* each initialiser is an accessor of the source that returns the field's type *)
    Forall2 (fun e f => exists h, accessor its a e = Some h /\ hm_ty h = f) es fields ->
    typed lib its (GFrom a b (lib_mod lib) es).
