(** * SpecDesk: an election run with the commands of the client against one node.

    One key is that of the authority, of its only trustee, and of the node (as in development mode,
    cryptoballot_server/src/main.rs 50-57).  Every voter types an election identifier and a text. *)
From Verif Require Import Base Utf8 Ident Crypto Types Serde Store SpecStore SpecValid SpecHist Exonum SpecLedger Encrypt Trustee Tasks SpecTasks Service SpecService
  Cli SpecCli SpecRun SpecNet.
Open Scope list_scope.

Section Spec.
  Context {C : Crypto} {TC : TCrypto}.
  Context (shellexpand : rstring -> option rstring).
  Context {R : Type} (eg_encrypt : EGPublicKey -> R -> bytes -> Ciphertext * R).
  Variables (dbg : bool) (id : arr 15) (sk : ed_secret) (el : ElectionTx).
  Notation Blk := (list (option Env)).

  (** [el] is what a node reads when it is sent the election of the client *)
  Definition started_with : Prop := exists x y, cli_election id sk = Ok x /\ carries (into_env x) y /\ s_tx y = XElection el.

  (** the arguments: an identifier of this election, and a text *)
  Definition argument (election election' : rstring) : Prop := shellexpand election = Some election' /\ names (sv election') id.
  Definition text (vote vote' : rstring) : Prop := shellexpand vote = Some vote' /\ (N.of_nat (length (sv vote')) < 2 ^ 63)%N.
  (** the voter's key differs from the others in its first ten bytes (see C18); a mix has at most 65535 rows *)
  Definition new_voter (vk : ed_secret) (cast : list (PublicKey * rstring)) : Prop :=
    (forall pk t, In (pk, t) cast -> firstn 10 (arr_l (sv pk)) <> firstn 10 (arr_l (sv (ed_public vk))))
    /\ (N.of_nat (length cast) < 65535)%N.

  (** envelopes of other elections: they do not look like this one when abbreviated to fifteen characters, which is
      how the audit selects (C40), and do not make the node a trustee *)
  Definition elsewhere (x : STx) : Prop :=
    outside el x /\ firstn 15 (id_to_string (s_id x)) <> firstn 15 (id_to_string (el_id el))
    /\ forall el', s_tx x = XElection el' -> ~ is_trustee el' (ed_public sk).

  (** committed blocks, the block that is being filled, and the votes typed in before the end of voting *)
  Inductive desk : list Blk -> Blk -> list (PublicKey * rstring) -> Prop :=
  | dk_start : desk [] [] []
  | dk_commit : forall bs b cast, desk bs b cast -> desk (bs ++ [b]) [] cast
  | dk_junk : forall bs b cast, desk bs b cast -> desk bs (b ++ [None]) cast
  | dk_other : forall bs b cast en, desk bs b cast -> SpecLedger.honest en -> readable en -> (forall x, carries en x -> elsewhere x) ->
      desk bs (b ++ [Some en]) cast
  | dk_election : forall bs b cast x, desk bs b cast -> cli_election id sk = Ok x -> desk bs (b ++ [Some (into_env x)]) cast
  | dk_node : forall bs b cast bs1 bs2 out en, desk bs b cast -> bs = bs1 ++ bs2 -> bs1 <> [] -> sends dbg sk bs1 out -> In en out -> written en ->
      desk bs (b ++ [Some en]) cast
  | dk_vote : forall bs b cast vk rng election election' vote vote' x, desk bs b cast ->
      argument election election' -> text vote vote' -> new_voter vk cast ->
      cli_vote shellexpand eg_encrypt (ledger_after dbg bs) rng vk election vote = Ok x ->
      ~ ended el (recorded_by dbg (bs ++ [b])) -> desk bs (b ++ [Some (into_env x)]) (cast ++ [(ed_public vk, vote')])
  | dk_late : forall bs b cast vk rng election election' vote vote' x, desk bs b cast ->
      argument election election' -> text vote vote' -> new_voter vk cast ->
      cli_vote shellexpand eg_encrypt (ledger_after dbg bs) rng vk election vote = Ok x ->
      ended el (recorded_by dbg (bs ++ [b])) -> desk bs (b ++ [Some (into_env x)]) cast
  | dk_end : forall bs b cast election election' x, desk bs b cast -> argument election election' ->
      cli_voting_end shellexpand sk election = Ok x ->
      (exists k, at_id (recorded_by dbg (bs ++ [b])) (slot0 (el_id el) TEncryptionKey) (XEncryptionKey k)) ->
      desk bs (b ++ [Some (into_env x)]) cast.

  (** what is to be published for a text *)
  Definition ballot_for (p : PublicKey * rstring) : list Selection := [mk_selection true (u_of 4 0) (snd p)].
End Spec.
