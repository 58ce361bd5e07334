(** * Results: what the client prints about votes (cryptoballot_cli/src/command_e2e.rs 45-90) and its
    remaining commands (cryptoballot_cli/src/main.rs 256-377).

    Printed text is modelled byte by byte.  [winners] of tallystick is modelled from its
    documentation: the candidates with the greatest count, ties included, in the unspecified order of
    the table.  Pretty-printing and the choice of the node's address are as in Rest.v. *)
From Verif Require Import Base Utf8 Value Ident Crypto Types Serde Store Exonum Api Tally Json Rest.
From Coq Require Strings.String.
Import String.StringSyntax.
Open Scope list_scope.

Definition nl : bytes := [x0a].
(** [DefaultPluralityTally::new(1)], [winners().into_unranked()] *)
Definition top (t : list (bytes * N)) : N := fold_right N.max 0%N (map snd t).
Definition winners (t : list (bytes * N)) : list bytes := map fst (filter (fun p => N.eqb (snd p) (top t)) t).

(** [println!("  {} got {} votes", candidate, num_votes)], 70-72 *)
Definition tally_line (p : bytes * N) : bytes :=
  sv (lit "  ") ++ fst p ++ sv (lit " got ") ++ dec_fuel 20 (snd p) ++ sv (lit " votes") ++ nl.
Definition tally_text (t : list (bytes * N)) : bytes := sv (lit "Tally:") ++ nl ++ flat_map tally_line t.
(** [println!("  {}:{}", selection.score, selection.selection)] and an empty line, 52-56 *)
Definition vote_line (s : Selection) : bytes :=
  sv (lit "  ") ++ dec_fuel 20 (score s) ++ sv (lit ":") ++ text s ++ nl ++ nl.
Definition votes_text (votes : list (list Selection)) : bytes :=
  sv (lit "Votes:") ++ nl ++ flat_map (flat_map vote_line) votes.
(** 88-89 *)
Definition results_text (w : bytes) : bytes := sv (lit "Results:") ++ nl ++ sv (lit "  The winner is ") ++ w ++ nl.

Section Results.
  Context {C : Crypto} (order : forall K, list (K * N) -> list (K * N)).
  (** [--print-votes], 45-58 *)
  Definition print_votes (s : Store) (e : Identifier) : res TallyErr bytes :=
    let! txs := get_multiple s e TDecryption in
    let! ds := map_res (into_typed as_decryption) txs in
    Ok (votes_text (map dc_vote ds)).
  (** [--print-tally], 60-73 *)
  Definition print_tally (s : Store) (e : Identifier) : res TallyErr bytes :=
    let! t := e2e_tally order s e in Ok (tally_text t).
  (** [--print-results], 75-90: [winners[0]] *)
  Definition winner (s : Store) (e : Identifier) : res TallyErr bytes :=
    let! t := e2e_tally order s e in or_panic (nth_error (winners t) 0) PIndex.
  Definition print_results (s : Store) (e : Identifier) : res TallyErr bytes :=
    let! w := winner s e in Ok (results_text w).

  (** [rest::get_transaction(uri, id.parse().unwrap()).unwrap()] *)
  Definition get_or_stop (L : Ledger) (id : rstring) : res Empty_set STx :=
    match id_from_str (sv id) with
    | Ok i => match rest_get L i with Ok x => Ok x | Err _ => Panic PUnwrap | Panic p => Panic p end
    | Err _ => Panic PUnwrap
    | Panic p => Panic p
    end.
  (** [command_get_transaction], main.rs 333-348 *)
  Definition cli_get (L : Ledger) (id : rstring) (pretty : bool) : res Empty_set bytes :=
    let! x := get_or_stop L id in Ok ((if pretty then stx_pretty x else stx_json x) ++ nl).
  (** [command_tally], main.rs 350-377: the counting is commented out, nothing is printed *)
  Definition cli_tally (L : Ledger) (id : rstring) : res Empty_set bytes :=
    let! x := get_or_stop L id in let! _ := into_typed as_election x in Ok [].
End Results.

(** [command_sign_transaction], main.rs 303-331, up to its first unwrap.  [clap] parses the arguments
    declared for [sign] (main.rs 34-49): an input file and the file of a key. *)
Definition sign_args (input secret : bytes) : list (bytes * bytes) :=
  [(sv (lit "INPUT"), input); (sv (lit "secret"), secret)].
Definition value_of (args : list (bytes * bytes)) (name : bytes) : option bytes :=
  option_map snd (find (fun p => bytes_eqb (fst p) name) args).
Definition cli_sign {A} (input secret : bytes) (rest : bytes -> res Empty_set A) : res Empty_set A :=
  let! filename := or_panic (value_of (sign_args input secret) (sv (lit "algorithim"))) PUnwrap in
  rest filename.
