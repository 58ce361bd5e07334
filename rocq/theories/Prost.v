(** * Prost: the protobuf form of [Selection] (ballot.rs 169-187, [#[derive(Message)]] of prost 0.7).

    Dependency code modelled from the prost 0.7 sources: fields are numbered 1, 2, 3 in
    declaration order; default values are not written; unknown fields are skipped; a field that
    occurs twice keeps the last value; groups nest at most 100 deep. *)
From Verif Require Import Base Utf8 Types.

(** ** Encoder *)
(** [encode_varint]; [k] bounds the number of bytes (10 for 64-bit values) *)
Fixpoint enc_varint (k : nat) (n : N) : bytes :=
  if (n <? 128)%N then [u8_of n]
  else match k with
       | O => []
       | S k' => u8_of (n mod 128 + 128) :: enc_varint k' (n / 128)
       end.
Definition varint (n : N) : bytes := enc_varint 9 n.
Definition enc_key (tag wire : N) : bytes := varint (8 * tag + wire).

(** [Message::encode] for [Selection] (a [Vec] buffer never lacks capacity, so [encode] cannot fail) *)
Definition sel_encode (s : Selection) : bytes :=
  (if sel_write_in s then enc_key 1 0 ++ varint 1 else [])
  ++ (if (uv (sel_score s) =? 0)%N then [] else enc_key 2 0 ++ varint (uv (sel_score s)))
  ++ (match sv (sel_text s) with
      | [] => []
      | t => enc_key 3 2 ++ varint (N.of_nat (length t)) ++ t
      end).

(** ** Decoder *)
(** [decode_varint]: at most 10 bytes; bits beyond 64 are shifted out *)
Fixpoint dec_varint_at (k : nat) (shift : N) (l : bytes) : option (N * bytes) :=
  match k, l with
  | S k', b :: l' =>
      if (u8v b <? 128)%N then Some ((u8v b * 2 ^ shift)%N, l')
      else match dec_varint_at k' (shift + 7) l' with
           | Some (n, r) => Some (((u8v b - 128) * 2 ^ shift + n)%N, r)
           | None => None
           end
  | _, _ => None
  end.
Definition dec_varint (l : bytes) : option (N * bytes) :=
  match dec_varint_at 10 0 l with Some (n, r) => Some ((n mod 2 ^ 64)%N, r) | None => None end.

(** [decode_key]: (tag, wire type); wire types 6 and 7 and tag 0 are errors *)
Definition dec_key (l : bytes) : option (N * N * bytes) :=
  match dec_varint l with
  | Some (k, r) =>
      let w := (k mod 8)%N in let t := (k / 8)%N in
      if (4294967295 <? k)%N then None
      else if (5 <? w)%N then None
      else if (t =? 0)%N then None
      else Some (t, w, r)
  | None => None
  end.

Definition advance (n : N) (l : bytes) : option bytes :=
  if (n <=? N.of_nat (length l))%N then Some (skipn (N.to_nat n) l) else None.

(** [skip_field]; [depth] is the remaining recursion budget, [fuel] bounds the number of
    fields inside groups (each consumes input, so the input length suffices). *)
Fixpoint skip_field (fuel depth : nat) (wire tag : N) (l : bytes) : option bytes :=
  match fuel with
  | O => None
  | S f =>
      match depth with
      | O => None
      | S d =>
          if (wire =? 0)%N then match dec_varint l with Some (_, r) => Some r | None => None end
          else if (wire =? 1)%N then advance 8 l
          else if (wire =? 5)%N then advance 4 l
          else if (wire =? 2)%N then
            match dec_varint l with Some (n, r) => advance n r | None => None end
          else if (wire =? 3)%N then skip_group f d tag l
          else None
      end
  end
with skip_group (fuel depth : nat) (tag : N) (l : bytes) : option bytes :=
  match fuel with
  | O => None
  | S f =>
      match dec_key l with
      | None => None
      | Some (t, w, r) =>
          if (w =? 4)%N then if (t =? tag)%N then Some r else None
          else match skip_field f depth w t r with
               | Some r' => skip_group f depth tag r'
               | None => None
               end
      end
  end.
Definition skip (wire tag : N) (l : bytes) : option bytes :=
  skip_field (3 * length l + 4) 100 wire tag l.

(** [merge_field] *)
Definition sel_merge (s : Selection) (tag wire : N) (l : bytes) : option (Selection * bytes) :=
  if (tag =? 1)%N then
    if (wire =? 0)%N then
      match dec_varint l with
      | Some (n, r) => Some (mk_selection (negb (n =? 0)%N) (sel_score s) (sel_text s), r)
      | None => None end
    else None
  else if (tag =? 2)%N then
    if (wire =? 0)%N then
      match dec_varint l with
      | Some (n, r) => Some (mk_selection (sel_write_in s) (u_of 4 n) (sel_text s), r)
      | None => None end
    else None
  else if (tag =? 3)%N then
    if (wire =? 2)%N then
      match dec_varint l with
      | Some (n, r) =>
          if (n <=? N.of_nat (length r))%N then
            match sub_of utf8_valid (firstn (N.to_nat n) r) with
            | Some t => Some (mk_selection (sel_write_in s) (sel_score s) t, skipn (N.to_nat n) r)
            | None => None
            end
          else None
      | None => None end
    else None
  else match skip wire tag l with Some r => Some (s, r) | None => None end.

(** [Message::merge]: every field consumes at least one byte, so the length is enough fuel;
    running out of fuel is an error value and is proved unreachable. *)
Fixpoint sel_merge_all (fuel : nat) (s : Selection) (l : bytes) : option Selection :=
  match l with
  | [] => Some s
  | _ =>
      match fuel with
      | O => None
      | S f =>
          match dec_key l with
          | None => None
          | Some (t, w, r) =>
              match sel_merge s t w r with
              | Some (s', r') => sel_merge_all f s' r'
              | None => None
              end
          end
      end
  end.

Definition sel_default : Selection :=
  mk_selection false (u_of 4 0) (@mk_sub bytes utf8_valid [] eq_refl).

(** [Selection::decode]; [None] is [DecodeError] *)
Definition sel_decode (l : bytes) : option Selection := sel_merge_all (length l) sel_default l.
