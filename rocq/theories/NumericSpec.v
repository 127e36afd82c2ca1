(** * NumericSpec: the words used in the properties of numeric buffers.

    Nothing here models code; of Numeric.v only the names of the types are used. *)

From Coq Require Import QArith Qabs.
From Verif Require Export Numeric.
Local Open Scope Z_scope.

(** The rational number [m * 2 ^ e]. *)
Definition dyadic (m e : Z) : Q :=
  if 0 <=? e then inject_Z (m * 2 ^ e) else Qmake m (Z.to_pos (2 ^ (- e))).

(** The bits of [f32] and [f64]: a sign bit, [x] bits of exponent and [f] of fraction. *)
Definition float_bits (k : numty) : option (Z * Z) :=
  match k with F32 => Some (8, 23) | F64 => Some (11, 52) | _ => None end.
Definition integer (k : numty) : Prop := float_bits k = None.

(** A payload of a number type: an integer in range, or the bits of a float. *)
Definition number (k : numty) (v : payload) : Prop :=
  match k with
  | U8 => 0 <= v <= 255
  | I8 => -128 <= v <= 127
  | U16 => 0 <= v <= 65535
  | I16 => -32768 <= v <= 32767
  | U32 => 0 <= v <= 4294967295
  | I32 => -2147483648 <= v <= 2147483647
  | U64 | Usize => 0 <= v <= 18446744073709551615
  | I64 | Isize => -9223372036854775808 <= v <= 9223372036854775807
  | U128 => 0 <= v <= 340282366920938463463374607431768211455
  | I128 => -170141183460469231731687303715884105728 <= v <= 170141183460469231731687303715884105727
  | F32 => 0 <= v < 2 ^ 32
  | F64 => 0 <= v < 2 ^ 64
  end.

(** Sign, exponent field and fraction field of the bits [v] of a float (IEEE 754). *)
Definition fields (x f v : Z) : bool * Z * Z :=
  let neg := 2 ^ (x + f) <=? v in
  let rest := if neg then v - 2 ^ (x + f) else v in
  (neg, rest / 2 ^ f, rest mod 2 ^ f).

(** The number a payload stands for; none for an infinity or NaN, whose exponent field is all ones.
    The exponent is biased by [2 ^ (x - 1) - 1], and numbers with exponent field zero have no hidden
    bit. *)
Definition num_value (k : numty) (v : payload) : option Q :=
  match float_bits k with
  | None => Some (inject_Z v)
  | Some (x, f) =>
      let '(neg, e, m) := fields x f v in
      let bias := 2 ^ (x - 1) - 1 in
      if e <? 2 ^ x - 1 then
        Some (let q := if e =? 0 then dyadic m (1 - bias - f) else dyadic (2 ^ f + m) (e - bias - f) in
              if neg then Qopp q else q)
      else None
  end.
Definition is_nan (k : numty) (v : payload) : Prop :=
  match float_bits k with
  | None => False
  | Some (x, f) => let '(_, e, m) := fields x f v in e = 2 ^ x - 1 /\ m <> 0
  end.
Definition is_inf (k : numty) (neg : bool) (v : payload) : Prop :=
  match float_bits k with
  | None => False
  | Some (x, f) => fields x f v = (neg, 2 ^ x - 1, 0)
  end.

(** The size of a number in bytes. *)
Definition num_bytes (k : numty) : N :=
  match k with
  | U8 | I8 => 1 | U16 | I16 => 2 | U32 | I32 | F32 => 4
  | U64 | I64 | F64 | Usize | Isize => 8 | U128 | I128 => 16
  end.

(** The number [q] is a number of type [k]. *)
Definition representable (k : numty) (q : Q) : Prop :=
  exists v r, number k v /\ num_value k v = Some r /\ (r == q)%Q.
(** The payload [y] is the number [q], exactly. *)
Definition stands_for (k : numty) (y : payload) (q : Q) : Prop :=
  exists r, num_value k y = Some r /\ (r == q)%Q.
(** No number of type [k] is closer to [q] than [y] is. *)
Definition closest (k : numty) (y : payload) (q : Q) : Prop :=
  exists r, num_value k y = Some r /\
    forall v r', number k v -> num_value k v = Some r' -> (Qabs (r - q) <= Qabs (r' - q))%Q.

(** The type ids of the number types are different and have the right sizes. *)
Definition number_ids (G : tenv) (nid : numty -> tyid) : Prop :=
  (forall k k', nid k = nid k' -> k = k') /\
  (forall k, t_size (G (nid k)) = num_bytes k).

(** [n] is [q] without its fractional part. *)
Definition truncation (q : Q) (n : Z) : Prop :=
  (Qabs (inject_Z n) <= Qabs q)%Q /\ (Qabs q < Qabs (inject_Z n) + 1)%Q /\ (0 <= inject_Z n * q)%Q.

(** The claim of the property for one element: the same number if there is one, else zero. *)
Definition same_or_zero (k O : numty) (x y : payload) : Prop :=
  forall q, num_value k x = Some q ->
    (representable O q -> stands_for O y q) /\ (~ representable O q -> stands_for O y 0).

(** What the cast does to one element, for all types. *)
Definition converted (k O : numty) (x y : payload) : Prop :=
  number O y /\
  (forall q, num_value k x = Some q ->
     (representable O q -> stands_for O y q) /\
     (integer O -> exists n, truncation q n /\ (number O n -> y = n) /\ (~ number O n -> y = 0)) /\
     (~ integer O ->
        (num_value O y <> None -> closest O y q) /\
        (num_value O y = None -> exists neg, is_inf O neg y) /\
        ((exists v r, number O v /\ num_value O v = Some r /\ (Qabs q <= Qabs r)%Q) -> num_value O y <> None))) /\
  (integer O -> num_value k x = None -> y = 0) /\
  (~ integer O -> is_nan k x -> is_nan O y) /\
  (~ integer O -> forall neg, is_inf k neg x -> is_inf O neg y).
