(** * SpecNet: a network of honest nodes, block by block.

    Blocks come in any size and order; a block may contain anything that somebody sent: what the nodes
    of the election sent after an earlier block (see [after_commit]), late, repeated or never, votes, the end of
    voting, envelopes that belong to other elections, and payloads that are no envelopes. *)
From Verif Require Import Base Utf8 Cbor Ident BuildId Crypto Types Serde Store SpecStore Validate SpecValid SpecHist Exonum SpecLedger
  Encrypt Trustee Tasks SpecTasks Service SpecService SpecThreshold SpecCli SpecRun.
Open Scope list_scope.

Section Spec.
  Context {C : Crypto} {TC : TCrypto}.
  Context {R : Type} (eg_encrypt : EGPublicKey -> R -> bytes -> Ciphertext * R).
  Variables (dbg : bool) (el : ElectionTx) (T : people) (contests : list u32).
  Notation e := (el_id el).
  Notation Blk := (list (option Env)).

  (** the transactions recorded by a chain, in order *)
  Definition recorded_by (bs : list Blk) : list STx := accepted dbg [] (envelopes bs).
  (** [out] is what a node sends after the last block of the chain *)
  Definition sends (sk : ed_secret) (bs : list Blk) (out : list Env) : Prop :=
    exists r, after_commit dbg sk r (fold_left (commit dbg) bs genesis) = Ok out.
  (** the address of the envelope does not stop the nodes (see C47) *)
  Definition readable (en : Env) : Prop := forall p, id_from_str (sv (en_id en)) <> Panic p.

  (** the payload can be read back, and is shorter than 2^64 bytes *)
  Definition written (en : Env) : Prop := (N.of_nat (length (en_data en)) < 2 ^ 64)%N /\ exists x, carries en x.

  (** where an envelope comes from, after the blocks [bs] and the recorded transactions [h] *)
  Inductive origin (bs : list Blk) (h : list STx) (en : Env) : Prop :=
  | or_other : SpecLedger.honest en -> readable en -> (forall x, carries en x -> outside el x) -> origin bs h en
  | or_start : forall x, SpecLedger.honest en -> carries en x -> s_tx x = XElection el -> origin bs h en
  | or_vote : forall x v, SpecLedger.honest en -> carries en x -> s_tx x = XVote v -> voter eg_encrypt el contests h v -> origin bs h en
  | or_end : forall x ve, SpecLedger.honest en -> carries en x -> s_tx x = XVotingEnd ve -> ve_election ve = e -> ve_id ve = slot0 e TVotingEnd ->
      (exists k, at_id h (slot0 e TEncryptionKey) (XEncryptionKey k)) -> origin bs h en
  | or_node : forall bs1 bs2 sk out, bs = bs1 ++ bs2 -> bs1 <> [] -> node el T sk -> sends sk bs1 out -> In en out ->
      written en -> origin bs h en.
  (** committed blocks, and the block that is being filled *)
  Inductive network : list Blk -> Blk -> Prop :=
  | nw_start : network [] []
  | nw_commit : forall bs b, network bs b -> network (bs ++ [b]) []
  | nw_junk : forall bs b, network bs b -> network bs (b ++ [None])
  | nw_env : forall bs b en, network bs b -> origin bs (recorded_by (bs ++ [b])) en -> network bs (b ++ [Some en]).

  (** the node is a trustee of this election only *)
  Definition dedicated (sk : ed_secret) (bs : list Blk) : Prop :=
    forall x el', In x (recorded_by bs) -> s_tx x = XElection el' -> outside el x -> ~ is_trustee el' (ed_public sk).
  (** all of the election that the node sent after each block but the last is recorded at the end of the chain *)
  Definition delivered (sk : ed_secret) (bs : list Blk) : Prop :=
    forall bs1 b bs2, bs = bs1 ++ b :: bs2 -> bs1 <> [] ->
    exists out, sends sk bs1 out
      /\ forall y, In (into_env y) out -> inside el y -> exists en, recorded (ledger_after dbg bs) (id_to_string (s_id y)) en.
  (** the last two blocks record nothing of the election *)
  Definition settled (bs : list Blk) : Prop :=
    forall x, In x (recorded_by bs) -> inside el x -> In x (recorded_by (removelast (removelast bs))).

  (** every new block holds all that the nodes [ns] sent after the block before, and nothing else of the election *)
  Inductive rounds (ns : list ed_secret) (bs : list Blk) : list Blk -> Prop :=
  | ro_none : rounds ns bs []
  | ro_more : forall new b, rounds ns bs new ->
      (forall sk, In sk ns -> exists out, sends sk (bs ++ new) out /\ forall en, In en out -> In (Some en) b) ->
      (forall en, In (Some en) b ->
         (forall i, id_from_str (sv (en_id en)) = Ok i -> id_election i <> id_election e)
         \/ exists sk out, In sk ns /\ sends sk (bs ++ new) out /\ In en out /\ written en) ->
      rounds ns bs (new ++ [b]).
  (** the next [n] blocks, if each contains exactly what the nodes [ns] send after the block before *)
  Fixpoint driven (r : nat -> Rnd) (ns : list ed_secret) (nd : Node) (n : nat) : list Blk :=
    match n with
    | O => []
    | Datatypes.S n' =>
        let b := map Some (flat_map (fun sk => match after_commit dbg sk r nd with Ok out => out | _ => [] end) ns) in
        b :: driven r ns (commit dbg nd b) n'
    end.
  Definition all_written (bs : list Blk) : Prop := forall b en, In b bs -> In (Some en) b -> written en.
End Spec.
