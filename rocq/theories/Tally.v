(** * Tally: [TallyResult::tally] (cryptoballot/src/tally.rs 26-352) and the tally of the [e2e]
    command (cryptoballot_cli/src/command_e2e.rs 57-73).

    The counting itself is done by the tallystick crate, which is modelled from its documented
    behaviour (repeated in ballot.rs 50-167):
    - a tally keeps a hash map from candidates to counts; [totals()] lists its entries in an
      unspecified order, here the parameter [order];
    - [add_ref]/[ranked_add] of the ranked tallies fail on a ballot that names a candidate twice;
    - the pairwise tallies count, for every ballot, the ordered pairs of candidates of which the
      first has the smaller rank;
    - a [BordaTally] over integers panics for the Dowdall variant.
    Counts are unbounded here (u64 there: only 2^32 selections could overflow one).  Of the result,
    [num_votes], [totals] and [spoiled_ballots] are modelled here; the [winners] of a plurality tally are in Results.v;
    [results] is computed from the totals inside tallystick and is not modelled. *)
From Verif Require Import Base Utf8 Ident Crypto Types Store.
Open Scope list_scope.

(** candidates are compared by their text *)
Definition text (s : Selection) : bytes := sv (sel_text s).
Definition score (s : Selection) : N := uv (sel_score s).

(** tally.rs 36-43: [vote.sort_by(|a, b| a.score.cmp(&b.score))], a stable sort *)
Fixpoint insert (x : Selection) (l : list Selection) : list Selection :=
  match l with
  | [] => [x]
  | y :: l' => if (score x <? score y)%N then x :: l else y :: insert x l'
  end.
Definition sort (l : list Selection) : list Selection := fold_left (fun acc x => insert x acc) l [].

Section Tables.
  Context {K : Type} (eqb : K -> K -> bool).
  (** the running totals *)
  Fixpoint add (k : K) (n : N) (t : list (K * N)) : list (K * N) :=
    match t with
    | [] => [(k, n)]
    | (k', n') :: t' => if eqb k k' then (k', (n' + n)%N) :: t' else (k', n') :: add k n t'
    end.
  Definition add_all (l : list (K * N)) (t : list (K * N)) : list (K * N) :=
    fold_left (fun t p => add (fst p) (snd p) t) l t.
  (** [IndexMap::insert] *)
  Fixpoint iput (k : K) (n : N) (t : list (K * N)) : list (K * N) :=
    match t with
    | [] => [(k, n)]
    | (k', n') :: t' => if eqb k k' then (k', n) :: t' else (k', n') :: iput k n t'
    end.
  Definition iput_all (l : list (K * N)) : list (K * N) := fold_left (fun t p => iput (fst p) (snd p) t) l [].
  (** number of different elements *)
  Fixpoint different (l : list K) : nat :=
    match l with [] => 0 | k :: l' => (if existsb (eqb k) l' then 0 else 1) + different l' end.
  Fixpoint repeats (l : list K) : bool :=
    match l with [] => false | k :: l' => existsb (eqb k) l' || repeats l' end.
End Tables.

(** what one ballot adds *)
Definition ones (v : list Selection) : list (bytes * N) := map (fun s => (text s, 1%N)) v.
Definition scores (v : list Selection) : list (bytes * N) := map (fun s => (text s, score s)) v.
(** the Borda variants: points by position; [n] candidates in all, [m] on this ballot *)
Fixpoint by_position (points : N -> N) (i : N) (v : list Selection) : list (bytes * N) :=
  match v with [] => [] | s :: v' => (text s, points i) :: by_position points (i + 1)%N v' end.
(** the ordered pairs of a ranked ballot *)
Definition pairs (v : list Selection) : list ((bytes * bytes) * N) :=
  flat_map (fun a => flat_map (fun b => if (score a <? score b)%N then [((text a, text b), 1%N)] else []) v) v.
Definition pair_eqb (a b : bytes * bytes) : bool := bytes_eqb (fst a) (fst b) && bytes_eqb (snd a) (snd b).
(** [format!("{} > {}", a, b)] *)
Definition arrow : bytes := [x20; x3e; x20].
Definition label (p : bytes * bytes) : bytes := fst p ++ arrow ++ snd p.

(** [SpoiledBallotError], error.rs 204-230 *)
Inductive Spoiling :=
| IncorrectProtobufFormat | NoSelections | TooManySelections | DuplicateCandidate | InvalidRanking | ScoreOverLimit
| WriteInNotAllowed | CandidateNotFound.
(** [TallyResult], 13-24, of which [num_votes], [totals] and [spoiled_ballots] *)
Record TallyResult := mk_tally { tl_votes : nat; tl_totals : list (bytes * N); tl_spoiled : list (Identifier * Spoiling) }.
Notation TallyErr := Empty_set.

Section Tally.
  (** the order in which a tally lists its totals *)
  Context (order : forall K, list (K * N) -> list (K * N)).

  Definition count_plain (f : list Selection -> list (bytes * N)) (votes : list (list Selection)) : list (bytes * N) :=
    iput_all bytes_eqb (order _ (fold_left (fun t v => add_all bytes_eqb (f v) t) votes [])).
  (** [.expect("Unexpected duplicate candidate")] on the first ballot that repeats a candidate *)
  Fixpoint checked {K} (eqb : K -> K -> bool) (f : list Selection -> list (K * N)) (votes : list (list Selection))
    (t : list (K * N)) : res TallyErr (list (K * N)) :=
    match votes with
    | [] => Ok t
    | v :: votes' => if repeats bytes_eqb (map text v) then Panic PExpect
                     else checked eqb f votes' (add_all eqb (f v) t)
    end.
  Definition count_pairs (votes : list (list Selection)) : res TallyErr (list (bytes * N)) :=
    let! t := checked pair_eqb pairs votes [] in
    Ok (iput_all bytes_eqb (map (fun p => (label (fst p), snd p)) (order _ t))).
  Definition count_borda (points : N -> N -> N -> N) (votes : list (list Selection)) : res TallyErr (list (bytes * N)) :=
    let n := N.of_nat (different bytes_eqb (map text (concat votes))) in
    let! t := checked bytes_eqb (fun v => by_position (points n (N.of_nat (length v))) 0 v) votes [] in
    Ok (iput_all bytes_eqb (order _ t)).

  Definition tally (ct : ContestType) (votes : list (list Selection)) : res TallyErr TallyResult :=
    let num := length votes in
    let votes := map sort votes in
    let! totals :=
      match ct with
      | Plurality => Ok (count_plain ones votes)                                     (* 46-73 *)
      | Score => Ok (count_plain scores votes)                                       (* 74-100 *)
      | Approval => Ok (count_plain ones votes)                                      (* 101-127 *)
      | Condorcet | SchulzeWinning | SchulzeMargin => count_pairs votes              (* 128-216 *)
      | SchulzeRatio => Panic PUnimplemented                                         (* 217-224 *)
      | Borda => count_borda (fun n m i => (n - i - 1)%N) votes                      (* 225-255 *)
      | BordaClassic => count_borda (fun n m i => (n - i)%N) votes                   (* 256-286 *)
      | BordaDowdall => Panic PAssert                                                (* 287-317 *)
      | BordaModifiedClassic => count_borda (fun n m i => (m - i)%N) votes           (* 318-348 *)
      end in
    Ok (mk_tally num totals []).   (* spoiled_ballots: IndexMap::new(), in every branch *)

  (** command_e2e.rs 57-73: the first selection ([vote[0]]) of every decryption of the election,
      whatever its contest *)
  Fixpoint e2e_count (votes : list (list Selection)) (t : list (bytes * N)) : res TallyErr (list (bytes * N)) :=
    match votes with
    | [] => Ok t
    | v :: votes' => let! s := or_panic (nth_error v 0) PIndex in e2e_count votes' (add bytes_eqb (text s) 1 t)
    end.
  Definition e2e_tally {C : Crypto} (s : Store) (election : Identifier) : res TallyErr (list (bytes * N)) :=
    let! txs := get_multiple s election TDecryption in
    let! ds := map_res (into_typed as_decryption) txs in
    let! t := e2e_count (map dc_vote ds) [] in
    Ok (order _ t).
End Tally.
