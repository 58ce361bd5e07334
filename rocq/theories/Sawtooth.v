(** * Sawtooth: the transaction processor (cryptoballot_sawtooth_tp/src/handler.rs). *)
From Verif Require Import Base Hex Utf8 Cbor Ident Crypto Types Serde Store Prost Validate.
Open Scope list_scope.

Section Sawtooth.
  Context {C : Crypto}.
  (** [CB_PREFIX], handler.rs 12-18: three bytes of a SHA-512 hash in hex; only its being fixed matters *)
  Context (cb_prefix : bytes).

  (** the validator's global state, address -> bytes.  State access is assumed not to fail. *)
  Definition SState := btree bytes.
  (** [cb_address], handler.rs 121-123 *)
  Definition cb_address (i : Identifier) : bytes := cb_prefix ++ id_to_string i.

  (** [CbState::get] and the [Store] implementation, 134-144 and 163-173 *)
  Definition saw_get (s : SState) (i : Identifier) : res Empty_set (option STx) :=
    match bt_get s (cb_address i) with
    | None => Ok None
    | Some packed => match stx_from_bytes packed with
                     | Ok x => Ok (Some x) | Err _ => Ok None | Panic p => Panic p end
    end.
  Definition saw_range (s : SState) (_ _ : Identifier) : res Empty_set (list STx) := Panic PTodo.
  Definition saw_store (s : SState) : Store := mk_store (saw_get s) (saw_range s).

  Inductive SawError := CannotParse | AlreadyExists | Invalid (e : VError) | InvalidHeader.

  (** [validate_transaction], 99-118 *)
  Definition saw_validate (dbg : bool) (s : SState) (x : STx) : res SawError unit :=
    (match s_tx x with
     | XElection _ => Ok tt
     | _ => let! o := lift (saw_get s (s_id x)) in
            fail_if (match o with Some _ => true | None => false end) AlreadyExists
     end) ;;
    map_err Invalid (validate dbg (saw_store s) x).

  (** [apply], 50-96; [header]: whether the request has a header *)
  Definition apply (dbg : bool) (s : SState) (header : bool) (payload : bytes) : res SawError SState :=
    fail_if (negb header) InvalidHeader ;;
    let! x := map_err (fun _ => CannotParse) (stx_from_bytes payload) in
    saw_validate dbg s x ;;
    Ok (bt_insert s (cb_address (s_id x)) (stx_bytes x)).

  (** a failed or panicking request leaves the state alone *)
  Definition saw_step (dbg : bool) (s : SState) (r : bool * bytes) : SState :=
    match apply dbg s (fst r) (snd r) with Ok s' => s' | _ => s end.
  Definition saw_run (dbg : bool) (s : SState) (l : list (bool * bytes)) : SState := fold_left (saw_step dbg) l s.
End Sawtooth.
