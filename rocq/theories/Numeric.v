(** * Numeric: casting and printing numeric buffers (feature "numeric").

    The conversions themselves are those of the crate num_traits 0.2 ([NumCast], [ToPrimitive],
    [Zero]) and of the [as] operator, which belong to the trusted base; they are written out here
    because the code relies on them.

    The payload of an integer is the integer; the payload of a float is its bits, as in
    [f32::to_bits]. *)

From Verif Require Export SliceCopy VecDyn.
Local Open Scope Z_scope.

(** The primitive number types. *)
Inductive numty : Type :=
| U8 | I8 | U16 | I16 | U32 | I32 | U64 | I64 | F32 | F64
| Usize | Isize | U128 | I128.

(** An integer type is its signedness and width; a float type is the number of bits of precision
    (with the hidden bit) and of the exponent. *)
Inductive shape : Type :=
| SInt (signed : bool) (bits : Z)
| SFloat (prec : Z) (ebits : Z).
Definition shape_of (k : numty) : shape :=
  match k with
  | U8 => SInt false 8 | U16 => SInt false 16 | U32 => SInt false 32 | U64 | Usize => SInt false 64
  | U128 => SInt false 128
  | I8 => SInt true 8 | I16 => SInt true 16 | I32 => SInt true 32 | I64 | Isize => SInt true 64
  | I128 => SInt true 128
  | F32 => SFloat 24 8 | F64 => SFloat 53 11
  end.

(** The integers of a type. *)
Definition int_min (signed : bool) (bits : Z) : Z := if signed then - 2 ^ (bits - 1) else 0.
Definition int_max (signed : bool) (bits : Z) : Z := if signed then 2 ^ (bits - 1) - 1 else 2 ^ bits - 1.
Definition fits_int (signed : bool) (bits : Z) (z : Z) : bool :=
  (int_min signed bits <=? z) && (z <=? int_max signed bits).

(** ** IEEE 754 bits *)

Section Float.
Variables prec ebits : Z.
(** The exponent of the last place of the smallest numbers. *)
Definition f_emin : Z := 3 - 2 ^ (ebits - 1) - prec.
Definition f_sign_bit : Z := 2 ^ (prec + ebits - 1).
Definition f_inf : Z := (2 ^ ebits - 1) * 2 ^ (prec - 1).
Definition f_nan : Z := f_inf + 2 ^ (prec - 2).
(** The sign and the rest of the bits. *)
Definition f_neg (v : Z) : bool := f_sign_bit <=? v.
Definition f_mag (v : Z) : Z := if f_neg v then v - f_sign_bit else v.
(** The magnitude of a finite number is [m * 2 ^ e]. *)
Definition f_mant (b : Z) : Z :=
  let E := b / 2 ^ (prec - 1) in let M := b mod 2 ^ (prec - 1) in
  if E =? 0 then M else M + 2 ^ (prec - 1).
Definition f_exp (b : Z) : Z :=
  let E := b / 2 ^ (prec - 1) in if E =? 0 then f_emin else f_emin + E - 1.

(** Round [m * 2 ^ e], with [m >= 0], to the nearest float, ties to even. *)
Definition f_round (m e : Z) : Z :=
  if m =? 0 then 0
  else
    let e' := Z.max (Z.log2 m + 1 + e - prec) f_emin in
    let k := e' - e in
    let q := if k <=? 0 then m * 2 ^ (- k)
             else
               let q0 := m / 2 ^ k in
               let r := m mod 2 ^ k in
               if (2 * r <? 2 ^ k) || ((2 * r =? 2 ^ k) && Z.even q0) then q0 else q0 + 1 in
    Z.min ((e' - f_emin) * 2 ^ (prec - 1) + q) f_inf.
Definition f_signed (neg : bool) (b : Z) : Z := if neg then b + f_sign_bit else b.
End Float.

(** ** num_traits *)

(** The truncation of [m * 2 ^ e] towards zero. *)
Definition f_trunc (m e : Z) : Z := if 0 <=? e then m * 2 ^ e else m / 2 ^ (- e).

(** [num_traits::cast::<I, O>]: to an integer type, fails out of range; a float is truncated towards
    zero, infinities and NaN fail.  To a float type it never fails: it is the [as] operator, which
    rounds to nearest.  (Rust does not say which NaN is the result of casting a NaN; here it is the
    quiet one.) *)
Definition num_cast (I O : numty) (v : payload) : option payload :=
  match shape_of I, shape_of O with
  | SInt _ _, SInt s b => if fits_int s b v then Some v else None
  | SInt _ _, SFloat p x => Some (f_signed p x (v <? 0) (f_round p x (Z.abs v) 0))
  | SFloat p x, SInt s b =>
      let m := f_mag p x v in
      if m <? f_inf p x then
        let n := f_trunc (f_mant p m) (f_exp p x m) in
        let z := if f_neg p x v then - n else n in
        if fits_int s b z then Some z else None
      else None
  | SFloat p x, SFloat p' x' =>
      let m := f_mag p x v in
      if f_inf p x <? m then Some (f_nan p' x')
      else if m =? f_inf p x then Some (f_signed p' x' (f_neg p x v) (f_inf p' x'))
      else Some (f_signed p' x' (f_neg p x v) (f_round p' x' (f_mant p m) (f_exp p x m)))
  end.
(** [O::zero()]. *)
Definition num_zero : payload := 0.

(** ** The dispatch macro *)

(** src/macros.rs:36-90, call_numeric_buffer_fn: the types that are tried, in this order. *)
Definition tried : list numty := [U8; I8; U16; I16; U32; I32; U64; I64; F32; F64].

Section Casting.
Context {V : Type} (P : profile) (G : tenv).
(** [TypeId::of] for the number types. *)
Variable nid : numty -> tyid.

Fixpoint try_types {A} (ks : list numty) (t : tyid) (f : numty -> A) (err : A) : A :=
  match ks with
  | [] => err
  | k :: ks' => if N.eqb t (nid k) then f k else try_types ks' t f err
  end.
Definition call_numeric_buffer_fn {A} (f : numty -> A) (self : veccopy V) (err : A) : A :=
  try_types tried (vc_element_type_id self) f err.

(** src/vec_copy.rs:476-478, [as_slice_as_unchecked] and reading the slice. *)
Definition vc_as_slice_as_unchecked (t : tyid) (self : veccopy V) : outcome (list payload) :=
  read_vals G t (N.to_nat (vc_len self)) (vv_bytes (vc_data self)).

(** src/vec_copy.rs:732-742 and src/vec_dyn.rs:650-662, [convert_into_vec].  The vector is here its
    list of elements; its allocation is left out. *)
Definition convert_into_vec (O : numty) (self : veccopy V) (I : numty) : outcome (list payload) :=
  let! _ := if debug_assertions P then assert_ (N.eqb (vc_element_type_id self) (nid I)) else Ret tt in
  let! xs := vc_as_slice_as_unchecked (nid I) self in
  Ret (map (fun x => match num_cast I O x with Some y => y | None => num_zero end) xs).

(** src/vec_copy.rs:727-744. *)
Definition vc_cast_into_vec (O : numty) (self : veccopy V) : outcome (list payload) :=
  call_numeric_buffer_fn (convert_into_vec O self) self (Ret []).
(** src/vec_dyn.rs:644-664. *)
Definition vd_cast_into_vec (O : numty) (self : vecdyn V) : outcome (option (list payload)) :=
  call_numeric_buffer_fn (fun I => let! ys := convert_into_vec O self I in Ret (Some ys)) self (Ret None).

(** ** Display *)

(** What is written: an element, printed as a number of a type and followed by a space. *)
Definition printed : Type := (numty * payload)%type.
(** A writer that has taken some items and fails after [wr_room] more (never, if [None]). *)
Record writer : Type := Writer { wr_items : list printed; wr_room : option nat }.
Definition write_item (i : printed) (f : writer) : bool * writer :=
  match wr_room f with
  | Some O => (false, f)
  | Some (S n) => (true, Writer (wr_items f ++ [i]) (Some n))
  | None => (true, Writer (wr_items f ++ [i]) None)
  end.

(** src/vec_copy.rs:750-752: [write!(..).expect(..)] for every element. *)
Fixpoint display_items (k : numty) (xs : list payload) (f : writer) : outcome unit * writer :=
  match xs with
  | [] => (Ret tt, f)
  | x :: xs' =>
      match write_item (k, x) f with
      | (true, f') => display_items k xs' f'
      | (false, f') => (Panic PAssert, f')
      end
  end.
(** src/vec_copy.rs:748-753. *)
Definition reinterpret_display (self : veccopy V) (k : numty) (f : writer) : outcome unit * writer :=
  match (if debug_assertions P then assert_ (N.eqb (vc_element_type_id self) (nid k)) else Ret tt) with
  | Ret _ =>
      match vc_as_slice_as_unchecked (nid k) self with
      | Ret xs => display_items k xs f
      | o => (retype o, f)
      end
  | o => (o, f)
  end.
(** src/vec_copy.rs:965-972, [Display::fmt]: an unknown type is reported on the standard output, not
    to the writer; writing the empty string does not fail.  The result [Ok(())] is [true]. *)
Definition vc_display (self : veccopy V) (f : writer) : outcome bool * writer :=
  let '(o, f') := call_numeric_buffer_fn (fun k f => reinterpret_display self k f) self (fun f => (Ret tt, f)) f in
  (let! _ := o in Ret true, f').

End Casting.
