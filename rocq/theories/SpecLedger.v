(** * SpecLedger: vocabulary for ledger properties.

    A ledger is seen as the set of its (key, envelope) pairs. *)
From Verif Require Import Base Hex Utf8 Cbor Ident Crypto Types Serde Store Prost Validate Exonum.
Open Scope list_scope.

Section Spec.
  Context {C : Crypto}.

  (** [e] is recorded under key [k] *)
  Definition recorded (L : Ledger) (k : bytes) (e : Env) : Prop := In (k, e) L.
  (** the payload of [e] is the transaction [x] *)
  Definition carries (e : Env) (x : STx) : Prop := stx_from_bytes (en_data e) = Ok x.
  (** the envelope is addressed by the identifier of its payload *)
  Definition honest (e : Env) : Prop := forall x, carries e x -> sv (en_id e) = id_to_string (s_id x).
  (** ledgers the service can reach *)
  Inductive reachable (dbg : bool) : Ledger -> Prop :=
  | reach_empty : reachable dbg []
  | reach_submit : forall L e, reachable dbg L -> reachable dbg (submit dbg L e).

  (** payloads of the accepted submissions, oldest first *)
  Fixpoint accepted (dbg : bool) (L : Ledger) (l : list Env) : list STx :=
    match l with
    | [] => []
    | e :: l' =>
        match verify_and_store dbg L e, stx_from_bytes (en_data e) with
        | Ok L', Ok x => x :: accepted dbg L' l'
        | _, _ => accepted dbg L l'
        end
    end.
End Spec.
