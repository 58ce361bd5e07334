(** * SpecProst: which byte strings are protobuf messages of a selection, and what they mean.

    Written from the protobuf wire format, as a grammar: nothing here computes. *)
From Verif Require Import Base Utf8 Types.
Open Scope list_scope.

(** little-endian base 128, the last byte below 128 *)
Inductive base128 : bytes -> N -> Prop :=
| base_last : forall b, (u8v b < 128)%N -> base128 [b] (u8v b)
| base_more : forall b l n, (128 <= u8v b)%N -> base128 l n -> base128 (b :: l) (u8v b - 128 + 128 * n)%N.
(** a varint has at most ten bytes and its value is taken modulo 2^64 *)
Definition a_varint (l : bytes) (n : N) : Prop :=
  exists m, base128 l m /\ length l <= 10 /\ n = (m mod 2 ^ 64)%N.
(** a field key: field number [t] (at least 1), wire type [w] *)
Definition a_key (l : bytes) (t w : N) : Prop :=
  a_varint l (8 * t + w)%N /\ (1 <= t)%N /\ (w <= 5)%N /\ (8 * t + w < 2 ^ 32)%N.

(** the value of an unknown field number [t] with wire type [w], nested less than [d] deep *)
Inductive value : nat -> N -> N -> bytes -> Prop :=
| v_varint : forall d t l n, a_varint l n -> value (S d) t 0 l
| v_64 : forall d t l, length l = 8 -> value (S d) t 1 l
| v_32 : forall d t l, length l = 4 -> value (S d) t 5 l
| v_bytes : forall d t p l, a_varint p (N.of_nat (length l)) -> value (S d) t 2 (p ++ l)
| v_group : forall d t l, group d t l -> value (S d) t 3 l
(** the inside of a group: fields up to the end key of the same number *)
with group : nat -> N -> bytes -> Prop :=
| g_end : forall d t k, a_key k t 4 -> group d t k
| g_field : forall d t k t' w v l, a_key k t' w -> w <> 4%N -> value d t' w v -> group d t l -> group d t (k ++ v ++ l).

(** the fields of a selection *)
Inductive field := FWriteIn (b : bool) | FScore (n : u32) | FText (t : rstring) | FOther.
Inductive a_field : bytes -> field -> Prop :=
| f_write_in : forall k v n, a_key k 1 0 -> a_varint v n -> a_field (k ++ v) (FWriteIn (negb (n =? 0)%N))
| f_score : forall k v n, a_key k 2 0 -> a_varint v n -> a_field (k ++ v) (FScore (u_of 4 n))
| f_text : forall k p t, a_key k 3 2 -> a_varint p (N.of_nat (length (sv t))) -> a_field (k ++ p ++ sv t) (FText t)
| f_other : forall k t w v, (3 < t)%N -> a_key k t w -> value 100 t w v -> a_field (k ++ v) FOther.
Inductive message : bytes -> list field -> Prop :=
| m_nil : message [] []
| m_cons : forall f l x xs, a_field f x -> message l xs -> message (f ++ l) (x :: xs).

(** the last occurrence of a field counts; a field that does not occur has its default *)
Fixpoint last_of {A} (pick : field -> option A) (d : A) (fs : list field) : A :=
  match fs with
  | [] => d
  | f :: fs => last_of pick (match pick f with Some a => a | None => d end) fs
  end.
Definition meaning (s : Selection) (fs : list field) : Selection :=
  mk_selection (last_of (fun f => match f with FWriteIn b => Some b | _ => None end) (sel_write_in s) fs)
    (last_of (fun f => match f with FScore n => Some n | _ => None end) (sel_score s) fs)
    (last_of (fun f => match f with FText t => Some t | _ => None end) (sel_text s) fs).
