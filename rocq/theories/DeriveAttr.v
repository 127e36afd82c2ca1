(** * DeriveAttr: the attributes of [dync_trait] and [dync_mod], token by token.

    Derive.v starts from attributes that are already parsed; this file parses them. *)

From Verif Require Import Base Derive.
Local Open Scope string_scope.
Local Open Scope list_scope.

(** The tokens of an attribute list.  [AKeyword]: a Rust keyword other than [true] and [false], which
    syn does not take for an identifier.  [ALit]: a literal that is not a string (numbers, characters,
    [true], [false]).  [AOther]: any other token or group. *)
Inductive atok : Type :=
| AIdent (s : string) | AKeyword (s : string) | AEq | AComma | AStr (s : string) | ALit | AOther.

(** dync-derive/src/lib.rs:40: [input.parse::<Option<Token![=]>>()]. *)
Definition skip_eq (ts : list atok) : list atok :=
  match ts with AEq :: r => r | _ => ts end.
(** dync-derive/src/lib.rs:41: [input.parse::<Option<Lit>>()]. *)
Definition parse_lit (ts : list atok) : attr_value * list atok :=
  match ts with
  | AStr s :: r => (VStr s, r)
  | ALit :: r => (VOther, r)
  | _ => (VNone, ts)
  end.
(** dync-derive/src/lib.rs:36-43: [DynAttrib::parse]; [None] is a parse error. *)
Definition parse_attrib (ts : list atok) : option (attrib * list atok) :=
  match ts with
  | AIdent s :: r => let '(v, r') := parse_lit (skip_eq r) in Some (Attrib s v, r')
  | _ => None
  end.

(** dync-derive/src/lib.rs:48: [Punctuated::parse_terminated]: attributes separated by commas, with an
    optional comma at the end, up to the end of the input.  [fuel] bounds the number of attributes, each
    of which takes a token. *)
Fixpoint parse_terminated (fuel : nat) (ts : list atok) : option (list attrib) :=
  match ts with
  | [] => Some []
  | _ =>
      match fuel with
      | O => None
      | S fuel' =>
          match parse_attrib ts with
          | None => None
          | Some (a, []) => Some [a]
          | Some (a, AComma :: r) => option_map (cons a) (parse_terminated fuel' r)
          | Some (_, _) => None
          end
      end
  end.
Definition parse_attribs (ts : list atok) : option (list attrib) := parse_terminated (List.length ts) ts.

(** dync-derive/src/lib.rs:266 and 420: [syn::parse(attr).expect(..)], then the macro. *)
Definition dync_trait_tokens (ts : list atok) (it : item_trait) : outcome (list gen_item) :=
  match parse_attribs ts with
  | Some attrs => dync_trait attrs it
  | None => Panic PAssert
  end.
Definition dync_mod_tokens (depth : nat) (ts : list atok) (its : list item_trait) : outcome (list gen_item) :=
  match parse_attribs ts with
  | Some attrs => dync_mod depth attrs its
  | None => Panic PAssert
  end.
