(** * Exonum: the ledger service (cryptoballot_exonum/src/lib.rs). *)
From Verif Require Import Base Hex Utf8 Cbor Ident Crypto Types Serde Store Prost Validate.
Open Scope list_scope.

Section Exonum.
  Context {C : Crypto}.

  (** [Transaction], lib.rs 24-35: the envelope *)
  Record Env := mk_env { en_pub : arr 32; en_id : rstring; en_data : bytes }.

  (** [From<SignedTransaction> for Transaction], lib.rs 49-62 *)
  Definition into_env (x : STx) : Env :=
    mk_env (match tx_public (s_tx x) with Some k => sv k | None => arr_rep x00 32 end)
           (mk_sub (id_to_string (s_id x)) (norm_true (hex_utf8 (id_to_bytes (s_id x)))))
           (stx_bytes x).

  (** [TransactionSchema], lib.rs 72-77: [MapIndex<String, Transaction>]; merkledb orders string keys
      by their bytes *)
  Definition Ledger := btree Env.

  (** decoding a stored payload; [.ok()], so an error reads as absent *)
  Definition decode_ok (e : Env) : res Empty_set (option STx) :=
    match stx_from_bytes (en_data e) with
    | Ok x => Ok (Some x) | Err _ => Ok None | Panic p => Panic p end.

  (** lib.rs 87-95 *)
  Definition ex_get (L : Ledger) (i : Identifier) : res Empty_set (option STx) :=
    match bt_get L (id_to_string i) with Some e => decode_ok e | None => Ok None end.

  (** [MapIndex::iter_from]: the entries with key at or after [k] *)
  Definition iter_from (L : Ledger) (k : bytes) : Ledger := filter (fun p => bytes_leb k (fst p)) L.

  (** lib.rs 97-116: loop until a key is greater than [stop] *)
  Fixpoint collect_until (stop : bytes) (l : Ledger) : res Empty_set (list STx) :=
    match l with
    | [] => Ok []
    | (k, e) :: l' =>
        if bytes_ltb stop k then Ok []
        else let! o := decode_ok e in
             let! rest := collect_until stop l' in
             Ok (match o with Some x => x :: rest | None => rest end)
    end.
  Definition ex_range (L : Ledger) (a b : Identifier) : res Empty_set (list STx) :=
    collect_until (id_to_string b) (iter_from L (id_to_string a)).
  Definition ex_store (L : Ledger) : Store := mk_store (ex_get L) (ex_range L).

  (** lib.rs 119-136 *)
  Inductive ExError := TransactionAlreadyExists | VerificationFailed | InvalidTransactionFormat.

  (** [verify_and_store], lib.rs 140-177: the new ledger, or an error.  (The check of the inner
      public key at 157-167 is commented out in the source.) *)
  Definition verify_and_store (dbg : bool) (L : Ledger) (tx : Env) : res ExError Ledger :=
    fail_if (match bt_get L (sv (en_id tx)) with Some _ => true | None => false end) TransactionAlreadyExists ;;
    let! x := map_err (fun _ => InvalidTransactionFormat) (stx_from_bytes (en_data tx)) in
    map_err (fun _ => VerificationFailed) (validate dbg (ex_store L) x) ;;
    Ok (bt_insert L (sv (en_id tx)) tx).

  (** [submit_tx], cryptoballot_server/src/service.rs 36-44: Exonum discards the changes of a call that
      fails or panics *)
  Definition submit (dbg : bool) (L : Ledger) (tx : Env) : Ledger :=
    match verify_and_store dbg L tx with Ok L' => L' | _ => L end.
  Definition run (dbg : bool) (L : Ledger) (l : list Env) : Ledger := fold_left (submit dbg) l L.
End Exonum.
