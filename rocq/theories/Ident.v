(** * Ident: [Identifier] and [TransactionType] (cryptoballot/src/transaction.rs 315-577). *)
From Verif Require Import Base Hex.

(** transaction.rs 523-534 *)
Inductive TxType :=
| TElection | TKeyGenCommitment | TKeyGenShare | TKeyGenPublicKey | TEncryptionKey
| TVote | TVotingEnd | TMix | TPartialDecryption | TDecryption.

(** [tx_type as u8], transaction.rs 524-533 *)
Definition tt_u8 (t : TxType) : byte :=
  match t with
  | TElection => x01 | TKeyGenCommitment => x02 | TKeyGenShare => x03
  | TKeyGenPublicKey => x04 | TEncryptionKey => x05 | TVote => x06
  | TVotingEnd => x07 | TMix => x08 | TPartialDecryption => x09 | TDecryption => x0a
  end.

(** [TransactionType::try_from_primitive] / [from_u8] (num_enum derive; 567-569) *)
Definition tt_of_u8 (b : byte) : option TxType :=
  match b with
  | x01 => Some TElection | x02 => Some TKeyGenCommitment | x03 => Some TKeyGenShare
  | x04 => Some TKeyGenPublicKey | x05 => Some TEncryptionKey | x06 => Some TVote
  | x07 => Some TVotingEnd | x08 => Some TMix | x09 => Some TPartialDecryption
  | x0a => Some TDecryption
  | _ => None
  end.

Definition tt_eqb (a b : TxType) : bool := Byte.eqb (tt_u8 a) (tt_u8 b).

(** [TransactionType::hex_string], 537-550 *)
Definition tt_hex_string (t : TxType) : bytes :=
  match t with
  | TElection => [x30; x31] | TKeyGenCommitment => [x30; x32] | TKeyGenShare => [x30; x33]
  | TKeyGenPublicKey => [x30; x34] | TEncryptionKey => [x30; x35] | TVote => [x30; x36]
  | TVotingEnd => [x30; x37] | TMix => [x30; x38] | TPartialDecryption => [x30; x39]
  | TDecryption => [x30; x61]
  end.

(** transaction.rs 322-326 *)
Record Identifier := mk_id {
  id_election : arr 15;
  id_type : TxType;
  id_unique : arr 16
}.

(** derived [PartialEq] *)
Definition id_eqb (a b : Identifier) : bool :=
  arr_eqb (id_election a) (id_election b) && tt_eqb (id_type a) (id_type b)
  && arr_eqb (id_unique a) (id_unique b).

(** [Identifier::new], 330-343 *)
Definition id_new (e : Identifier) (t : TxType) (u : option (arr 16)) : Identifier :=
  mk_id (id_election e) t (match u with Some x => x | None => arr_rep x00 16 end).

(** Overwrite the start of a 16-byte array filled with [fill] by the mask;
    [copy_from_slice] on [unique_info[0..mask.len()]] panics when the mask is longer. *)
Lemma masked_ok (fill : byte) (mask : bytes) :
  Nat.leb (length mask) 16 = true ->
  Nat.eqb (length (mask ++ repeat fill (16 - length mask))) 16 = true.
Proof.
  intros H. apply Nat.leb_le in H. apply Nat.eqb_eq. rewrite app_length, repeat_length. lia.
Qed.
Definition masked (fill : byte) (mask : bytes) : option (arr 16) :=
  match Nat.leb (length mask) 16 as b return (Nat.leb (length mask) 16 = b -> _) with
  | true => fun h => Some (mk_arr _ (norm_true (masked_ok fill mask h)))
  | false => fun _ => None
  end eq_refl.

Definition id_masked {E} (fill : byte) (e : Identifier) (t : TxType) (mask : option bytes)
  : res E Identifier :=
  match masked fill (match mask with Some m => m | None => [] end) with
  | Some u => Ok (mk_id (id_election e) t u)
  | None => Panic PIndex
  end.

(** [Identifier::start], 346-360 *)
Definition id_start {E} := @id_masked E x00.
(** [Identifier::end], 363-377 *)
Definition id_end {E} := @id_masked E xff.

(** [Identifier::new_from_str_id], 381-403 ([try_into().unwrap()] on a 15-byte slice cannot fail) *)
Definition id_new_from_str (s : bytes) (t : TxType) (u : option (arr 16)) : option Identifier :=
  match hex_decode s with
  | None => None
  | Some bits =>
      match arr_of 15 (firstn 15 bits) with
      | None => None  (* fewer than 15 bytes *)
      | Some e =>
          Some (id_new (mk_id e TElection (arr_rep x00 16)) t
                       (Some (match u with Some x => x | None => arr_rep x00 16 end)))
      end
  end.

(** [Identifier::to_array] / [to_bytes], 405-416 *)
Definition id_to_bytes (i : Identifier) : bytes :=
  arr_l (id_election i) ++ tt_u8 (id_type i) :: arr_l (id_unique i).

(** [Display]/[to_string], 466-470 *)
Definition id_to_string (i : Identifier) : bytes := hex_encode (id_to_bytes i).

(** [Identifier::election_id_string], 418-420 *)
Definition id_election_string (i : Identifier) : bytes := hex_encode (arr_l (id_election i)).

(** errors of [FromStr], error.rs 20-24 *)
Inductive IdError := IdentifierBadHex | IdentifierBadLen.

(** [FromStr for Identifier], 423-445.  The unwraps at 435 and 437 are the panics. *)
Definition id_from_str (s : bytes) : res IdError Identifier :=
  match hex_decode s with
  | None => Err IdentifierBadHex
  | Some b =>
      if negb (Nat.eqb (length b) 32) && negb (Nat.eqb (length b) 16)
      then Err IdentifierBadLen
      else
        let! e := or_panic (arr_of 15 (firstn 15 b)) PUnwrap in
        let! tb := or_panic (nth_error b 15) PIndex in
        let! t := or_panic (tt_of_u8 tb) PUnwrap in
        let! u := or_panic (arr_of 16 (skipn 16 b)) PUnwrap in
        Ok (mk_id e t u)
  end.

(** [Ord::cmp], 491-508 *)
Definition id_cmp (a b : Identifier) : comparison :=
  match lex (arr_l (id_election a)) (arr_l (id_election b)) with
  | Eq =>
      match byte_cmp (tt_u8 (id_type a)) (tt_u8 (id_type b)) with
      | Eq => lex (arr_l (id_unique a)) (arr_l (id_unique b))
      | c => c
      end
  | c => c
  end.

(** [PartialOrd::partial_cmp], 472-489 (written out separately in the source) *)
Definition id_partial_cmp (a b : Identifier) : option comparison :=
  match lex (arr_l (id_election a)) (arr_l (id_election b)) with
  | Eq =>
      match byte_cmp (tt_u8 (id_type a)) (tt_u8 (id_type b)) with
      | Eq => Some (lex (arr_l (id_unique a)) (arr_l (id_unique b)))
      | c => Some c
      end
  | c => Some c
  end.
