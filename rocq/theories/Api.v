(** * Api: the REST endpoints (cryptoballot_server/src/api.rs). *)
From Verif Require Import Base Hex Utf8 Cbor Ident Crypto Types Serde Store Prost Validate Exonum.
Open Scope list_scope.

Section Api.
  Context {C : Crypto}.

  Inductive ApiError := ApiNotFound | ApiInternal.

  Definition api_decode (e : Env) : res ApiError STx := map_err (fun _ => ApiInternal) (stx_from_bytes (en_data e)).

  (** [get_tx], api.rs 25-37 *)
  Definition get_tx (L : Ledger) (id : rstring) : res ApiError STx :=
    let! e := ok_or (bt_get L (sv id)) ApiNotFound in api_decode e.

  (** number of characters of a UTF-8 string: bytes that are not continuation bytes *)
  Definition char_count (s : bytes) : nat := length (filter (fun b => negb (cont b)) s).
  (** [format!("{:0<64}", prefix)]: fill with '0' on the right up to 64 characters *)
  Definition pad64 (p : bytes) : bytes := p ++ repeat x30 (64 - char_count p).

  (** api.rs 51-58: stop at the first key without the prefix *)
  Fixpoint take_prefix (p : bytes) (l : Ledger) : res ApiError (list STx) :=
    match l with
    | [] => Ok []
    | (k, e) :: l' =>
        if negb (starts_with k p) then Ok []
        else let! x := api_decode e in let! rest := take_prefix p l' in Ok (x :: rest)
    end.
  (** [get_all], api.rs 40-68 *)
  Definition get_all (L : Ledger) (prefix : option rstring) : res ApiError (list STx) :=
    match prefix with
    | Some p => take_prefix (sv p) (iter_from L (pad64 (sv p)))
    | None => map_res (fun p => api_decode (snd p)) L
    end.
End Api.
