(** * SpecSpoiled: ballots that should not be counted (error.rs 204-230, ballot.rs 17-30 and 170-187). *)
From Verif Require Import Base Utf8 Ident Crypto Types Store SpecAgree.
Open Scope list_scope.

(** the text is that of a candidate of the contest *)
Definition candidate_of (c : Contest) (t : rstring) : Prop := exists k, In k (cont_candidates c) /\ cand_id k = t.
(** the ways to spoil a ballot for which the source fixes a rule.  It fixes none for a ranking ([InvalidRanking]) or a limit
    on scores ([ScoreOverLimit]); a ballot that is not protobuf has no selections to speak of. *)
Inductive spoiled (c : Contest) (v : list Selection) : Prop :=
| sp_nothing : v = [] -> spoiled c v
| sp_many : cont_type c = Plurality -> 2 <= length v -> spoiled c v
| sp_twice : forall p a q b r, v = p ++ a :: q ++ b :: r -> sel_text a = sel_text b -> spoiled c v
| sp_write_in : forall s, In s v -> sel_write_in s = true -> cont_write_in c = false -> spoiled c v
| sp_unknown : forall s, In s v -> sel_write_in s = false -> ~ candidate_of c (sel_text s) -> spoiled c v.
(** who may be elected *)
Definition eligible (c : Contest) (name : bytes) : Prop := (exists t, candidate_of c t /\ sv t = name) \/ cont_write_in c = true.

(** ** Two stores that differ in what elections say about their contests: names, candidates, types, write-ins, winners, properties *)
Section Spec.
  Context {C : Crypto}.
  Definition el_like (a b : ElectionTx) : Prop :=
    el_id a = el_id b /\ el_authority a = el_authority b /\ el_trustees a = el_trustees b /\ el_threshold a = el_threshold b
    /\ el_authenticators a = el_authenticators b /\ el_auth_threshold a = el_auth_threshold b
    /\ el_mix_config a = el_mix_config b /\ el_ballots a = el_ballots b /\ (el_contests a = [] <-> el_contests b = []).
  Definition stx_like (x y : STx) : Prop :=
    x = y \/ exists a b, s_tx x = XElection a /\ s_tx y = XElection b /\ el_like a b.
  Definition store_like (s s' : Store) : Prop :=
    (forall i, res_agree (opt_agree stx_like) (st_get s i) (st_get s' i))
    /\ (forall a b, res_agree (Forall2 stx_like) (st_range s a b) (st_range s' a b)).
End Spec.
