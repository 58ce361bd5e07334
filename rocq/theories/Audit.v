(** * Audit: the end-to-end verification command (cryptoballot_cli/src/command_e2e.rs). *)
From Verif Require Import Base Hex Utf8 Cbor Ident Crypto Types Serde Store Prost Validate Exonum Api.
Open Scope list_scope.

Section Audit.
  Context {C : Crypto}.

  (** why the command exits with status 1 *)
  Inductive AuditError := BadElectionId | NoTransactions | FirstNotElection | Invalid (i : Identifier) (e : VError).

  (** lines 33-41: validate each transaction against the previously replayed ones *)
  Fixpoint audit_from (dbg : bool) (m : MemStore) (l : list STx) : res AuditError MemStore :=
    match l with
    | [] => Ok m
    | x :: l' => map_err (Invalid (s_id x)) (validate dbg (ms_store m) x) ;; audit_from dbg (ms_set m x) l'
    end.

  (** lines 20-43, from the fetched list to "Election verified OK" *)
  Definition audit (dbg : bool) (txs : list STx) : res AuditError MemStore :=
    match txs with
    | [] => Err NoTransactions
    | x :: _ =>
        fail_if (negb (tt_eqb (s_type x) TElection)) FirstNotElection ;;
        audit_from dbg ms_empty txs
    end.

  (** [&s[0..15]] panics unless byte 15 starts a character (or ends the string) *)
  Definition is_char_boundary (s : bytes) (n : nat) : bool :=
    match nth_error s n with Some b => negb (cont b) | None => Nat.eqb n (length s) end.
  (** lines 6-43 against a node's REST listing.  [rest.rs] 60-75 moves the list over HTTP as JSON
      (see Rest.v and C81); a failing request panics ([unwrap] at line 17). *)
  Definition command_e2e (dbg : bool) (L : Ledger) (election_id : rstring) : res AuditError MemStore :=
    fail_if (Nat.ltb (length (sv election_id)) 15) BadElectionId ;;
    (if is_char_boundary (sv election_id) 15 then Ok tt else Panic PIndex) ;;
    match sub_of utf8_valid (firstn 15 (sv election_id)) with
    | None => Panic PIndex
    | Some prefix =>
        match get_all L (Some prefix) with
        | Ok txs => audit dbg txs
        | Err _ => Panic PUnwrap
        | Panic p => Panic p
        end
    end.
End Audit.
