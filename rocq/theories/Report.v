(** * Report: everything that [command_e2e] prints after the audit (cryptoballot_cli/src/command_e2e.rs 43-90).

    The text is modelled byte by byte, with what has been printed when the command stops in between.  [order], [order'] stand for the
    order of the two hash maps of lines 64-70 and 79-87. *)
From Verif Require Import Base Utf8 Ident Crypto Types Serde Store Tally Results.
From Coq Require Strings.String.
Import String.StringSyntax.
Open Scope list_scope.

(** what was printed, and how it ended *)
Definition shown : Type := bytes * res TallyErr unit.
Definition say (l : bytes) : shown := (l, Ok tt).
Definition after {A} (r : res TallyErr A) (k : A -> shown) : shown :=
  match r with Ok a => k a | Err e => ([], Err e) | Panic p => ([], Panic p) end.
Definition next (a b : shown) : shown := match snd a with Ok _ => (fst a ++ fst b, snd b) | _ => a end.

(** [matches.is_present(..)], 45, 60, 75 *)
Record Asked := mk_asked { a_votes : bool; a_tally : bool; a_results : bool }.

Section Report.
  Context {C : Crypto} (order order' : forall K, list (K * N) -> list (K * N)).
  (** 45-58 *)
  Fixpoint votes_loop (l : list STx) : shown :=
    match l with
    | [] => say []
    | x :: l' => after (into_typed as_decryption x) (fun d => next (say (flat_map vote_line (dc_vote d))) (votes_loop l'))
    end.
  Definition votes_part (s : Store) (e : Identifier) : shown :=
    next (say (sv (lit "Votes:") ++ nl)) (after (get_multiple s e TDecryption) votes_loop).
  (** 60-73 *)
  Definition tally_part (s : Store) (e : Identifier) : shown :=
    next (say (sv (lit "Tally:") ++ nl)) (after (e2e_tally order s e) (fun t => say (flat_map tally_line t))).
  (** 75-90 *)
  Definition results_part (s : Store) (e : Identifier) : shown :=
    next (say (sv (lit "Results:") ++ nl)) (after (winner order' s e) (fun w => say (sv (lit "  The winner is ") ++ w ++ nl))).
  (** 43-90 *)
  Definition report (a : Asked) (s : Store) (e : Identifier) : shown :=
    next (say (sv (lit "> Election verified OK") ++ nl))
      (next (if a_votes a then votes_part s e else say [])
        (next (if a_tally a then tally_part s e else say [])
          (if a_results a then results_part s e else say []))).
End Report.
