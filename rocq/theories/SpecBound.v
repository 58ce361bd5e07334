(** * SpecBound: a result that gives nobody more votes than were cast for them. *)
From Verif Require Import Base Utf8 Cbor Crypto Ident Types Prost SpecProst Trustee Lagrange SpecStore SpecValid SpecThreshold SpecIntegrity SpecOutcome ThresholdFacts Props_Prost.
Open Scope list_scope.

Section Spec.
  Context {C : Crypto} {TC : TCrypto} {K : Fld} {M : Mdl}.
  (** the votes recorded for election [e] *)
  Definition votes_for (L : list STx) (e : Identifier) (vs : list VoteTx) : Prop :=
    NoDup vs /\ forall v, In v vs <-> exists x, In x L /\ s_tx x = XVote v /\ vt_election v = e.
  (** the rows of ciphertexts they give in contest [c]: of each vote its first entry for the contest, if any *)
  Inductive rows_in (c : u32) : list VoteTx -> list (list Ciphertext) -> Prop :=
  | ri_nil : rows_in c [] []
  | ri_none : forall v vs rows, (forall ev, In ev (vt_votes v) -> ev_contest ev <> c) -> rows_in c vs rows -> rows_in c (v :: vs) rows
  | ri_some : forall v ev vs rows, first_with (fun ev => ev_contest ev = c) (vt_votes v) ev -> rows_in c vs rows ->
      rows_in c (v :: vs) (ev_selections ev :: rows).
  (** what the voters of [e] cast in contest [c] *)
  Definition cast_in (S : threshold_scheme K M) (P : list F) (L : list STx) (e : Identifier) (c : u32) (bs : list (list Selection)) : Prop :=
    exists vs rows, votes_for L e vs /\ rows_in c vs rows /\ Forall2 (row_of S P sel_encode) bs rows /\ Forall (Forall fits) bs.
  (** what went into the mix [m] *)
  Definition mixed_in (S : threshold_scheme K M) (P : list F) (L : list STx) (m : MixTx) (bs : list (list Selection)) : Prop :=
    exists vs, recorded_votes L (mx_votes m) vs
      /\ Forall2 (row_of S P sel_encode) bs (rows_of (mx_contest m) vs) /\ Forall (Forall fits) bs.
  (** the printed totals give no text more than the number of ballots that select it first, and in all no
      more than there are ballots *)
  Definition no_more (bs : list (list Selection)) (t : list (bytes * N)) : Prop :=
    (forall name n, In (name, n) t -> exists k, chosen name bs k /\ (n <= k)%N)
    /\ (fold_right N.add 0 (map snd t) <= N.of_nat (length bs))%N.
End Spec.
