(** * Derive: the macros [dync_mod] and [dync_trait] of dync-derive.

    The macros read trait declarations and write table structs, accessors, constructors and
    conversions.  This file models the macros themselves: their input is a list of trait
    declarations and their output a list of generated items.  What the generated items mean once
    compiled is in DeriveSem.v.  Not modelled: spans, visibility, attributes and the bodies of the
    user's traits, none of which the macros look at except to copy them to the output. *)

From Verif Require Import Base.
From Coq Require Import Ascii.
Local Open Scope string_scope.
Local Open Scope list_scope.

(** ** Configuration *)

(** dync-derive/src/lib.rs:14-19: Config. *)
Record config : Type := Config {
  cf_crate : string;          (* dync_crate_name *)
  cf_suffix : string;         (* suffix *)
  cf_build_only : bool        (* build_vtable_only *)
}.

(** dync-derive/src/lib.rs:21-29: Config::default. *)
Definition config_default : config := Config "dync" "VTable" false.

(** dync-derive/src/lib.rs:31-34: DynAttrib.  Of literals only "a string" or "something else"
    matters. *)
Inductive attr_value : Type := VNone | VStr (s : string) | VOther.
Record attrib : Type := Attrib { at_ident : string; at_value : attr_value }.

(** One turn of the loop in dync-derive/src/lib.rs:47-58: attributes that are not recognised are
    ignored. *)
Definition config_step (c : config) (a : attrib) : config :=
  match at_value a with
  | VNone => if at_ident a =? "build_vtable_only" then Config (cf_crate c) (cf_suffix c) true else c
  | VStr s =>
      if at_ident a =? "dync_crate_name" then Config s (cf_suffix c) (cf_build_only c)
      else if at_ident a =? "suffix" then Config (cf_crate c) s (cf_build_only c)
      else c
  | VOther => c
  end.

(** dync-derive/src/lib.rs:43-61: Config::parse on attributes that are already parsed. *)
Definition config_parse (l : list attrib) : config := fold_left config_step l config_default.

(** ** Traits *)

(** dync-derive/src/lib.rs:127-138: Trait. *)
Inductive trait : Type :=
| TDrop | TClone | TPartialEq | TEq | THash | TDebug | TSend | TSync
| TCustom (name : string).

Definition trait_rank (t : trait) : N :=
  match t with
  | TDrop => 0 | TClone => 1 | TPartialEq => 2 | TEq => 3 | THash => 4 | TDebug => 5
  | TSend => 6 | TSync => 7 | TCustom _ => 8
  end.

(** dync-derive/src/lib.rs:127: the derived [Ord]: by constructor, then by name. *)
Definition trait_cmp (a b : trait) : comparison :=
  match a, b with
  | TCustom x, TCustom y => String.compare x y
  | _, _ => N.compare (trait_rank a) (trait_rank b)
  end.

(** dync-derive/src/lib.rs:127: the derived [PartialEq]. *)
Definition trait_eqb (a b : trait) : bool :=
  match trait_cmp a b with Eq => true | _ => false end.

(** dync-derive/src/lib.rs:140-143: Trait::is_unsafe. *)
Definition trait_unsafe (t : trait) : bool :=
  match t with TSend | TSync => true | _ => false end.

(** dync-derive/src/lib.rs:154-168: From<String> for Trait. *)
Definition trait_of_name (s : string) : trait :=
  if (s =? "Drop") || (s =? "std::ops::Drop") then TDrop
  else if (s =? "Clone") || (s =? "std::clone::Clone") then TClone
  else if (s =? "PartialEq") || (s =? "std::cmp::PartialEq") then TPartialEq
  else if (s =? "Eq") || (s =? "std::cmp::Eq") then TEq
  else if (s =? "Hash") || (s =? "std::hash::Hash") then THash
  else if (s =? "Debug") || (s =? "std::fmt::Debug") then TDebug
  else if (s =? "Send") || (s =? "std::marker::Send") then TSend
  else if (s =? "Sync") || (s =? "std::marker::Sync") then TSync
  else TCustom s.

(** A path in a bound: a leading [::], and segments with a flag for "has generic arguments". *)
Record tpath : Type := TPath { tp_leading : bool; tp_segs : list (string * bool) }.

Definition plain_path (l : list string) : tpath := TPath false (map (fun s => (s, false)) l).

Fixpoint segs_eqb (a b : list (string * bool)) : bool :=
  match a, b with
  | [], [] => true
  | (x, f) :: a', (y, g) :: b' => (x =? y) && Bool.eqb f g && segs_eqb a' b'
  | _, _ => false
  end.

(** syn's [PartialEq] on paths.  Two segments with arguments would need equal arguments; the macro
    only compares with paths that have none. *)
Definition path_eqb (a b : tpath) : bool :=
  Bool.eqb (tp_leading a) (tp_leading b) && segs_eqb (tp_segs a) (tp_segs b).

(** [quote! { #x }.to_string()] of a path without arguments. *)
Definition path_string (p : tpath) : string :=
  (if tp_leading p then ":: " else "") ++ String.concat " :: " (map fst (tp_segs p)).

(** dync-derive/src/lib.rs:170-184: From<Path> for Trait. *)
Definition trait_of_path (p : tpath) : trait :=
  if path_eqb p (plain_path ["Drop"]) then TDrop
  else if path_eqb p (plain_path ["Clone"]) then TClone
  else if path_eqb p (plain_path ["PartialEq"]) then TPartialEq
  else if path_eqb p (plain_path ["Eq"]) then TEq
  else if path_eqb p (plain_path ["std"; "hash"; "Hash"]) then THash
  else if path_eqb p (plain_path ["std"; "fmt"; "Debug"]) then TDebug
  else if path_eqb p (plain_path ["Send"]) then TSend
  else if path_eqb p (plain_path ["Sync"]) then TSync
  else TCustom (path_string p).

(** ** Sets of traits: [BTreeSet<Trait>] as a sorted list *)

(** std: BTreeSet::insert. *)
Fixpoint set_insert (x : trait) (l : list trait) : list trait :=
  match l with
  | [] => [x]
  | y :: l' =>
      match trait_cmp x y with
      | Lt => x :: l
      | Eq => l
      | Gt => y :: set_insert x l'
      end
  end.

(** std: BTreeSet::extend, and [collect] when started from the empty set. *)
Definition set_extend (s : list trait) (l : list trait) : list trait :=
  fold_left (fun s x => set_insert x s) l s.
Definition set_collect (l : list trait) : list trait := set_extend [] l.

(** ** Trait data *)

(** dync-derive/src/lib.rs:64-69: TraitData.  The path is kept as its list of segments; the macro
    keeps it as text and parses it back.  A method is kept as its name (93-96: TraitMethod). *)
Record trait_data : Type := TraitData {
  td_path : list string;
  td_methods : list string;
  td_supers : list trait
}.

(** The last segment of the path, as used by 72-90. *)
Definition td_name (d : trait_data) : string := last (td_path d) "".

(** dync-derive/src/lib.rs:75-79: has_trait. *)
Definition td_has (d : trait_data) : string := String.append "Has" (td_name d).
(** dync-derive/src/lib.rs:80-84: bytes_trait. *)
Definition td_bytes (d : trait_data) : string := String.append (td_name d) "Bytes".
(** dync-derive/src/lib.rs:85-90: vtable_name. *)
Definition td_vtable (d : trait_data) : string := String.append (td_name d) "VTable".

(** heck's [to_upper_camel_case] on lower-case words joined by underscores, which is what all
    method names in this crate are: the letter at the start and after an underscore is raised and
    the underscore dropped. *)
Definition ascii_upper (c : ascii) : ascii :=
  let n := N_of_ascii c in
  if ((97 <=? n) && (n <=? 122))%N then ascii_of_N (n - 32) else c.
Fixpoint camel_go (up : bool) (s : string) : string :=
  match s with
  | EmptyString => EmptyString
  | String c s' =>
      if Ascii.eqb c "_" then camel_go true s'
      else String (if up then ascii_upper c else c) (camel_go false s')
  end.
Definition upper_camel (s : string) : string := camel_go true s.

(** dync-derive/src/lib.rs:98-106: TraitMethod::new strips a trailing [_fn]. *)
Definition method_new (s : string) : string :=
  let n := String.length s in
  if (3 <=? n)%nat && (String.substring (n - 3) 3 s =? "_fn") then String.substring 0 (n - 3) s
  else s.
(** dync-derive/src/lib.rs:107-112: fn_type. *)
Definition method_ty (m : string) : string := String.append (upper_camel m) "Fn".
(** dync-derive/src/lib.rs:113-118: bytes_fn.  heck's [to_snek_case] leaves lower-case words joined
    by underscores as they are. *)
Definition method_bytes (m : string) : string := String.append m "_bytes".
(** dync-derive/src/lib.rs:119-124: has_fn. *)
Definition method_has (m : string) : string := String.append m "_fn".

(** ** Trait maps: [HashMap<Trait, TraitData>] as an association list *)

Definition trait_map : Type := list (trait * trait_data).

Fixpoint tm_get (k : trait) (m : trait_map) : option trait_data :=
  match m with
  | [] => None
  | (k', d) :: m' => if trait_eqb k k' then Some d else tm_get k m'
  end.

Fixpoint tm_remove (k : trait) (m : trait_map) : trait_map :=
  match m with
  | [] => []
  | (k', d) :: m' => if trait_eqb k k' then tm_remove k m' else (k', d) :: tm_remove k m'
  end.

(** dync-derive/src/lib.rs:186-259: BUILTINS. *)
Definition builtins : trait_map :=
  [ (TDrop, TraitData ["Drop"] [method_new "drop"] []);
    (TClone, TraitData ["Clone"]
               [method_new "clone"; method_new "clone_from"; method_new "clone_into_raw"] []);
    (TPartialEq, TraitData ["PartialEq"] [method_new "eq"] []);
    (TEq, TraitData ["Eq"] [] (set_collect [TPartialEq]));
    (THash, TraitData ["std"; "hash"; "Hash"] [method_new "hash"] []);
    (TDebug, TraitData ["std"; "fmt"; "Debug"] [method_new "fmt"] []);
    (TSend, TraitData ["Send"] [] []);
    (TSync, TraitData ["Sync"] [] []) ].

(** dync-derive/src/lib.rs:144-151: Trait::prefix: the module path written before the names that
    belong to a builtin trait; empty for the user's traits. *)
Definition trait_prefix (t : trait) (crate : string) : string :=
  match tm_get t builtins with
  | Some _ => String.append crate "::traits::"
  | None => ""
  end.

(** ** Input *)

(** A bound in a supertrait list. *)
Inductive bound : Type :=
| BLifetime
| BTrait (lifetimes maybe : bool) (p : tpath).   (* for<'a> / ?Trait / the path *)

(** A trait declaration: its name, whether it has generic parameters or a where clause, and its
    supertrait bounds. *)
Record item_trait : Type := ItemTrait {
  it_name : string;
  it_generics : bool;
  it_where : bool;
  it_bounds : list bound
}.

(** The filter of dync-derive/src/lib.rs:356-379. *)
Definition bound_trait (b : bound) : option trait :=
  match b with
  | BLifetime => None
  | BTrait lifetimes maybe p =>
      if lifetimes || maybe then None
      else if forallb (fun s => negb (snd s)) (tp_segs p) then Some (trait_of_path p)
      else None
  end.

Fixpoint filter_map {A B} (f : A -> option B) (l : list A) : list B :=
  match l with
  | [] => []
  | x :: l' => match f x with Some y => y :: filter_map f l' | None => filter_map f l' end
  end.

(** dync-derive/src/lib.rs:349-386: fill_trait_map_from_item_trait. *)
Definition fill_trait_map (it : item_trait) (m : trait_map) : trait_map :=
  let k := trait_of_name (it_name it) in
  match tm_get k m with
  | Some _ => m
  | None =>
      (k, TraitData [it_name it] [] (set_collect (filter_map bound_trait (it_bounds it)))) :: m
  end.

Fixpoint oconcat {A B} (f : A -> outcome (list B)) (l : list A) : outcome (list B) :=
  match l with
  | [] => Ret []
  | x :: l' =>
      let! r := f x in
      let! r' := oconcat f l' in
      Ret (r ++ r')
  end.

(** dync-derive/src/lib.rs:404-413: union_children.  [depth] is the number of nested calls that fit
    on the stack; running out of it aborts the compiler. *)
Fixpoint union_children (depth : nat) (k : trait) (m : trait_map) : outcome (list trait) :=
  match depth with
  | O => Abort
  | S depth' =>
      match tm_get k m with
      | None => Ret []
      | Some d =>
          let! r := oconcat (fun s => union_children depth' s m) (td_supers d) in
          Ret (set_extend (set_collect (td_supers d)) r)
      end
  end.

(** dync-derive/src/lib.rs:388-402: flatten_inheritance. *)
Definition flatten_inheritance (depth : nat) (it : item_trait) (m : trait_map)
    : outcome trait_map :=
  let k := trait_of_name (it_name it) in
  match tm_get k m with
  | None => Panic PAssert
  | Some d =>
      let m' := tm_remove k m in
      let! ss := oconcat (fun s => let! r := union_children depth s m' in Ret (r ++ [s]))
                         (td_supers d) in
      let! _ := assert_ (match tm_get k m' with None => true | Some _ => false end) in
      Ret ((k, TraitData (td_path d) (td_methods d) (set_collect ss)) :: m')
  end.

Fixpoint flatten_all (depth : nat) (its : list item_trait) (m : trait_map) : outcome trait_map :=
  match its with
  | [] => Ret m
  | it :: its' => let! m' := flatten_inheritance depth it m in flatten_all depth its' m'
  end.

(** dync-derive/src/lib.rs:324-339: fill_and_flatten_trait_map_from_mod.  Items of the module that
    are not traits are skipped by the macro and are left out here. *)
Definition fill_and_flatten (depth : nat) (its : list item_trait) (m : trait_map)
    : outcome trait_map :=
  flatten_all depth its (fold_left (fun m it => fill_trait_map it m) its m).

(** dync-derive/src/lib.rs:341-347: fill_drop_for_inheritance. *)
Definition fill_drop (m : trait_map) : trait_map :=
  map (fun kd =>
         match fst kd with
         | TDrop => kd
         | _ => (fst kd, TraitData (td_path (snd kd)) (td_methods (snd kd))
                                   (set_insert TDrop (td_supers (snd kd))))
         end) m.

(** ** Output *)

(** A name as it is written in the generated code: a module path and an identifier. *)
Definition qname : Type := (string * string)%type.

(** A method of an accessor trait: [fn name(&self) -> &ty { &self.idx }]. *)
Record has_method : Type := HasMethod { hm_name : string; hm_ty : qname; hm_idx : N }.

Inductive gen_item : Type :=
| GHasTrait (name : qname) (is_unsafe : bool) (deps : list qname) (methods : list (string * qname))
    (* [trait name: deps { fn m(&self) -> &ty; .. }] *)
| GHasImpl (has table : qname) (is_unsafe : bool) (methods : list has_method)
    (* [impl has for table { .. }] *)
| GDowncast (has : qname)
    (* [impl_downcast!(has)] *)
| GStruct (table : qname) (fields : list qname)
    (* [struct table(fields)] *)
| GBuild (bnd : string) (vtable_trait table : qname) (exprs : list (qname * string))
    (* [impl<T: bnd> VTable<T> for table { fn build_vtable() { table(<T as tr>::f, ..) } }] *)
| GFrom (from to : qname) (use_ : string) (exprs : list string).
    (* [impl From<from> for to], with [use use_] and one accessor call on [derived] per field *)

(** The methods recorded for a trait, none when the trait is not in the map. *)
Definition methods_of (m : trait_map) (t : trait) : list string :=
  match tm_get t m with Some d => td_methods d | None => [] end.

(** dync-derive/src/lib.rs:456-492: vtable_struct_def. *)
Definition vtable_struct_def (c : config) (m : trait_map) (d : trait_data) : gen_item :=
  GStruct ("", td_vtable d)
    (flat_map (fun st => map (fun f => (trait_prefix st (cf_crate c), method_ty f))
                             (methods_of m st)) (td_supers d)).

(** dync-derive/src/lib.rs:525-535: the accessors of one supertrait, numbered from [idx]. *)
Fixpoint number_methods (prefix : string) (idx : N) (fs : list string) : list has_method :=
  match fs with
  | [] => []
  | f :: fs' => HasMethod (method_has f) (prefix, method_ty f) idx
                :: number_methods prefix (idx + 1)%N fs'
  end.

(** dync-derive/src/lib.rs:515-553: the accessor implementations, one per known supertrait. *)
Fixpoint has_impls (c : config) (m : trait_map) (table : qname) (idx : N) (ss : list trait)
    : list gen_item :=
  match ss with
  | [] => []
  | st :: ss' =>
      match tm_get st m with
      | None => has_impls c m table idx ss'
      | Some d =>
          let prefix := trait_prefix st (cf_crate c) in
          GHasImpl (prefix, td_has d) table (trait_unsafe st)
                   (number_methods prefix idx (td_methods d))
          :: has_impls c m table (idx + lenN (td_methods d))%N ss'
      end
  end.

(** dync-derive/src/lib.rs:552: has_impl_deps. *)
Definition has_deps (c : config) (m : trait_map) (ss : list trait) : list qname :=
  flat_map (fun st => match tm_get st m with
                      | Some d => [(trait_prefix st (cf_crate c), td_has d)]
                      | None => []
                      end) ss.

(** dync-derive/src/lib.rs:568-587: vtable_constructor. *)
Definition constructor_exprs (c : config) (m : trait_map) (ss : list trait)
    : list (qname * string) :=
  flat_map (fun st =>
              match tm_get st m with
              | Some d => map (fun f => ((trait_prefix st (cf_crate c), td_bytes d), method_bytes f))
                              (td_methods d)
              | None => []
              end) ss.

(** dync-derive/src/lib.rs:609-655: one conversion. *)
Definition conversion_exprs (m : trait_map) (d : trait_data) : list string :=
  flat_map (fun ss => map method_has (methods_of m ss)) (td_supers d)
  ++ map method_has (td_methods d).

Definition conversions (c : config) (m : trait_map) (table : qname) (ss : list trait)
    : list gen_item :=
  flat_map (fun st =>
              match tm_get st m with
              | Some d => [GFrom table (trait_prefix st (cf_crate c), td_vtable d)
                                 (String.append (cf_crate c) "::traits::")
                                 (conversion_exprs m d)]
              | None => []
              end) ss.

(** Names that cannot start a path in Rust (2018): all keywords but [crate], [self] and [super]. *)
Definition keywords : list string :=
  ["_"; "Self"; "abstract"; "as"; "async"; "await"; "become"; "box"; "break"; "const"; "continue"; "do"; "dyn";
   "else"; "enum"; "extern"; "false"; "final"; "fn"; "for"; "if"; "impl"; "in"; "let"; "loop"; "macro";
   "match"; "mod"; "move"; "mut"; "override"; "priv"; "pub"; "ref"; "return"; "static"; "struct"; "trait";
   "true"; "try"; "type"; "typeof"; "unsafe"; "unsized"; "use"; "virtual"; "where"; "while"; "yield"].
Definition ident_start (c : ascii) : bool :=
  let n := N_of_ascii c in
  ((65 <=? n) && (n <=? 90) || (97 <=? n) && (n <=? 122) || (n =? 95) || (128 <=? n))%N%bool.
Definition ident_char (c : ascii) : bool :=
  let n := N_of_ascii c in (ident_start c || (48 <=? n) && (n <=? 57))%N%bool.
(** dync-derive/src/lib.rs:146 and 589: [Ident::new(crate_name)] panics if the name is not an identifier;
    so does parsing the code in which it starts a path, if it is a keyword.  Characters beyond ASCII are
    taken to be letters.  (The names of traits are identifiers, since the compiler has read them.) *)
Definition ident_ok (s : string) : bool :=
  match list_ascii_of_string s with
  | [] => false
  | c :: r => ident_start c && forallb ident_char r && negb (existsb (String.eqb s) keywords)
  end.

(** dync-derive/src/lib.rs:495-662: construct_dync_items. *)
Definition construct_items (c : config) (m : trait_map) (it : item_trait)
    : outcome (list gen_item) :=
  match tm_get (trait_of_name (it_name it)) m with
  | None => Panic PAssert
  | Some d =>
      let! _ := assert_ (ident_ok (cf_crate c)) in
      let table := ("", td_vtable d) in
      let has := ("", String.append "Has" (it_name it)) in
      Ret (has_impls c m table 0 (td_supers d)
           ++ [GHasTrait has false (has_deps c m (td_supers d)) [];
               GHasImpl has table false [];
               GDowncast has;
               vtable_struct_def c m d;
               GBuild (it_name it) (String.append (cf_crate c) "::", "VTable") table
                      (constructor_exprs c m (td_supers d))]
           ++ conversions c m table (td_supers d))
  end.

(** dync-derive/src/lib.rs:261-296: dync_mod.  (297-303, validate_item_mod, checks that the module
    has a body.)  [depth] is the stack available to union_children. *)
Definition dync_mod (depth : nat) (attrs : list attrib) (its : list item_trait)
    : outcome (list gen_item) :=
  let c := config_parse attrs in
  let! m := fill_and_flatten depth its builtins in
  oconcat (construct_items c (fill_drop m)) its.

(** dync-derive/src/lib.rs:445-454: validate_item_trait. *)
Definition validate_item_trait (it : item_trait) : outcome unit :=
  let! _ := assert_ (negb (it_generics it)) in
  assert_ (negb (it_where it)).

(** dync-derive/src/lib.rs:415-443: dync_trait. *)
Definition dync_trait (attrs : list attrib) (it : item_trait) : outcome (list gen_item) :=
  let c := config_parse attrs in
  let! _ := validate_item_trait it in
  construct_items c (fill_drop (fill_trait_map it builtins)) it.
