(** * Hex: model of the [hex] crate ([hex::encode], [hex::decode]).

    Used by Identifier (transaction.rs 388, 427, 419, 468) and by the hex serde
    helpers (serde_hex.rs).  Dependency code, modelled from its documentation:
    lower-case output; decoding accepts both cases, fails on odd length or on a
    non-hex character. *)
From Verif Require Import Base.

(** one digit, 0..15 -> '0'..'9','a'..'f' *)
Definition hex_digit (n : N) : byte :=
  if (n <? 10)%N then u8_of (48 + n) else u8_of (87 + n).

Definition hex_byte (b : byte) : bytes :=
  [hex_digit (N.div (u8v b) 16); hex_digit (N.modulo (u8v b) 16)].

(** [hex::encode] *)
Definition hex_encode (l : bytes) : bytes := flat_map hex_byte l.

(** value of a hex character *)
Definition hex_val (c : byte) : option N :=
  let n := u8v c in
  if (48 <=? n)%N && (n <=? 57)%N then Some (n - 48)%N
  else if (65 <=? n)%N && (n <=? 70)%N then Some (n - 55)%N
  else if (97 <=? n)%N && (n <=? 102)%N then Some (n - 87)%N
  else None.

(** [hex::decode]; [None] = [Err(FromHexError)] *)
Fixpoint hex_decode (l : bytes) : option bytes :=
  match l with
  | [] => Some []
  | [_] => None
  | a :: b :: l' =>
      match hex_val a, hex_val b, hex_decode l' with
      | Some x, Some y, Some r => Some (u8_of (16 * x + y) :: r)
      | _, _, _ => None
      end
  end.

(** ASCII lower-casing, used to state what parsing forgets. *)
Definition lower (c : byte) : byte :=
  let n := u8v c in
  if (65 <=? n)%N && (n <=? 90)%N then u8_of (n + 32) else c.
