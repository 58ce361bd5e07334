(** * SpecJson: what JSON can carry. *)
From Verif Require Import Base Utf8 Cbor Value Ident Crypto Types.
Open Scope list_scope.

(** an item made of null, booleans, integers (of 64 bits, signed or not), text, lists, and maps with text keys:
    no byte strings and no floats *)
Fixpoint text_like (v : cval) : bool :=
  match v with
  | CUint _ | CText _ | CBool _ | CNull => true
  | CNint n => (uv n <? 2 ^ 63)%N
  | CArr l => forallb text_like l
  | CMap l => forallb (fun p => match p with (CText _, w) => text_like w | _ => false end) l
  | CBytes _ | CF32 _ | CF64 _ => false
  end.

(** an item of the ledger nested at most [n] deep *)
Definition nested (n : nat) (p : bytes) : Prop := forall v, cbor_from_slice p = Some v -> cdepth v <= n.

Section S.
  Context {C : Crypto}.
  (** the ciphertexts, keys, commitments, shares and proofs in a transaction are such items in the library's own serialisation *)
  Definition text_forms (t : Tx) : Prop :=
    match t with
    | XElection _ | XShare _ | XVotingEnd _ | XDecryption _ => True
    | XCommitment t => text_like (sv (kc_commitment t)) = true
    | XPublicKey t => text_like (sv (kp_key t)) = true /\ text_like (sv (kp_proof t)) = true
    | XEncryptionKey t => text_like (sv (ek_key t)) = true
    | XVote t => forall e c, In e (vt_votes t) -> In c (ev_selections e) -> text_like (sv c) = true
    | XMix t => (forall r c, In r (mx_out t) -> In c r -> text_like (sv c) = true) /\ text_like (sv (mx_proof t)) = true
    | XPartial t => forall s, In s (pd_shares t) -> text_like (sv s) = true
    end.
End S.
