(** * SpecVote: order of checks, quorum of authenticators, slots. *)
From Verif Require Import Base Utf8 Ident Crypto Types SpecStore SpecValid Store Validate.
Open Scope list_scope.

(** [e] is the error of the first condition that fails *)
Inductive first_failing {E} : list (Prop * E) -> E -> Prop :=
| ff_here : forall (P : Prop) e l, ~ P -> first_failing ((P, e) :: l) e
| ff_later : forall (P : Prop) e l e', P -> first_failing l e' -> first_failing ((P, e) :: l) e'.

Section Spec.
  Context {C : Crypto}.
  Implicit Types (L : list STx).

  (** the checks of a vote, in order, with the error each reports *)
  Definition vote_checks L (x : STx) (t : VoteTx) : list (Prop * VError) :=
    let the (P : ElectionTx -> Prop) := forall el, at_id L (vt_election t) (XElection el) -> P el in
    [ (id_type (vt_id t) = TVote, MismatchedTransactionType);
      (signed_by (vt_key t) x, SignatureError);
      (id_election (vt_id t) = id_election (vt_election t) /\ id_type (vt_id t) = TVote
       /\ arr_l (id_unique (vt_id t)) = firstn 16 (arr_l (sv (vt_key t))), IdentifierBadComposition);
      (exists el, at_id L (vt_election t) (XElection el),
       TransactionNotFound (mk_notfound (vt_election t) TElection));
      (forall y, In y L -> ~ collision_slot (vt_election t) (vt_key t) (s_id y), VoteAnonymousKeyCollision);
      (occupied L (slot0 (vt_election t) TEncryptionKey), EncryptionKeyTransactionDoesNotExist);
      (~ occupied L (slot0 (vt_election t) TVotingEnd), VotingHasEnded) ]
    ++ flat_map (fun an =>
         [ (the (fun el => exists a, first_with (fun a => au_id a = an_authenticator an) (el_authenticators el) a),
            AuthDoesNotExist);
           (the (fun el => forall a, first_with (fun a => au_id a = an_authenticator an) (el_authenticators el) a ->
                   authenticated a (vt_election t) (vt_ballot t) (vt_key t) (an_signature an)), AuthFailed) ])
       (vt_authn t)
    ++ [ (the (fun el => exists b, first_with (fun b => bal_id b = vt_ballot t) (el_ballots el) b),
          BallotDoesNotExist);
         (the (fun el => forall b, first_with (fun b => bal_id b = vt_ballot t) (el_ballots el) b ->
                 forall ev, In ev (vt_votes t) -> In (ev_contest ev) (bal_contests b)), VotedInWrongContest) ].

  (** at least [authenticators_threshold] different authenticators of the election have
      authenticated the key of the vote for its ballot *)
  Definition auth_quorum (el : ElectionTx) (t : VoteTx) : Prop :=
    exists l : list Authenticator,
      NoDup (map au_id l) /\ (u8v (el_auth_threshold el) <= N.of_nat (length l))%N
      /\ forall a, In a l -> In a (el_authenticators el)
           /\ exists an, In an (vt_authn t) /\ an_authenticator an = au_id a
                /\ authenticated a (vt_election t) (vt_ballot t) (vt_key t) (an_signature an).
End Spec.
