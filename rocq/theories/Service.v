(** * Service: the node's commit hook (cryptoballot_server/src/service.rs 52-128).

    A block is the list of its transactions: [Some e] when the payload parses as an envelope, [None] when not.
    Exonum itself (consensus, block production, the broadcaster) is not modelled: blocks arrive in order and
    each is executed by [submit_tx] before the hook runs.  The queue [DEPENDENT_TXS] (55-71) is never filled
    (the line that would do it, 110, is commented out), so the first loop does nothing.  Printing the
    transaction as JSON (103-104) is assumed not to fail. *)
From Verif Require Import Base Hex Utf8 Cbor Ident BuildId Crypto Types Serde Store Prost Validate Exonum Trustee Tasks.
Open Scope list_scope.

Section Service.
  Context {C : Crypto} {TC : TCrypto}.
  Context (dbg : bool) (sk : ed_secret) (r : nat -> Rnd).

  Definition Block := list (option Env).
  Definition payloads (b : Block) : list Env := flat_map (fun o => match o with Some e => [e] | None => [] end) b.
  Definition execute (L : Ledger) (b : Block) : Ledger := run dbg L (payloads b).

  (** 111-122: those not on the ledger are sent, as envelopes *)
  Fixpoint unsent (L : Ledger) (l : list STx) : res Empty_set (list Env) :=
    match l with
    | [] => Ok []
    | x :: l' => let! o := ex_get L (s_id x) in
                 let! rest := unsent L l' in
                 Ok (match o with Some _ => rest | None => into_env x :: rest end)
    end.
  (** [generate_transactions(..).unwrap()] *)
  Definition unwrapped {E A} (m : res E A) : res Empty_set A :=
    match m with Ok a => Ok a | Err _ => Panic PUnwrap | Panic p => Panic p end.
  (** the body of the loop, 92-126; [n] is the position in the block *)
  Definition follow_up (n : nat) (L : Ledger) (o : option Env) : res Empty_set (list Env) :=
    match o with
    | None => Ok []
    | Some e =>
        match id_from_str (sv (en_id e)) with
        | Err _ => Ok []
        | Panic p => Panic p
        | Ok i =>
            let! t := ex_get L i in
            match t with
            | None => Ok []
            | Some x => let! l := unwrapped (generate_transactions dbg sk (r n) (ex_store L) x) in unsent L l
            end
        end
    end.
  Fixpoint follow_block (n : nat) (L : Ledger) (b : Block) : res Empty_set (list Env) :=
    match b with
    | [] => Ok []
    | o :: b' => let! sent := follow_up n L o in
                 let! rest := follow_block (S n) L b' in Ok (sent ++ rest)
    end.

  (** the chain, block 0 (genesis) first, and the ledger after its last block *)
  Record Node := mk_node { nd_chain : list Block; nd_ledger : Ledger }.
  Definition genesis : Node := mk_node [[]] [].
  Definition commit (nd : Node) (b : Block) : Node := mk_node (nd_chain nd ++ [b]) (execute (nd_ledger nd) b).
  (** 52-128.  [Height::previous] asserts that the height is not 0. *)
  Definition after_commit (nd : Node) : res Empty_set (list Env) :=
    match List.length (nd_chain nd) with
    | S (S h) => follow_block 0 (nd_ledger nd) (nth h (nd_chain nd) [])
    | _ => Panic PAssert
    end.
  (** a sequence of commits, each followed by the hook: final node and what was sent *)
  Fixpoint run_node (nd : Node) (bs : list Block) : Node * res Empty_set (list Env) :=
    match bs with
    | [] => (nd, Ok [])
    | b :: bs' =>
        let nd' := commit nd b in
        match after_commit nd' with
        | Ok sent => let (last, rest) := run_node nd' bs' in
                     (last, let! more := rest in Ok (sent ++ more))
        | Err e => (nd', Err e)
        | Panic p => (nd', Panic p)
        end
    end.
End Service.
