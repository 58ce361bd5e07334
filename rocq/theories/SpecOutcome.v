(** * SpecOutcome: what the votes cast in an election add up to. *)
From Verif Require Import Base Utf8 Ident Crypto Types SpecRun.
Open Scope list_scope.

Section Spec.
  Context {C : Crypto}.
  (** all entries of the recorded votes of the election, and all its recorded decryptions *)
  Definition entries (el : ElectionTx) (h : list STx) : list EncryptedVote := flat_map vt_votes (votes_of el h).
  (** the text selected first *)
  Definition first_choice (v : list Selection) (c : bytes) : Prop :=
    exists s v', v = s :: v' /\ sv (sel_text s) = c.
  (** [n] of the votes select the text first *)
  Inductive chosen (c : bytes) : list (list Selection) -> N -> Prop :=
  | ch_nil : chosen c [] 0
  | ch_yes : forall v cast n, first_choice v c -> chosen c cast n -> chosen c (v :: cast) (n + 1)
  | ch_no : forall v cast n, ~ first_choice v c -> chosen c cast n -> chosen c (v :: cast) n.
  (** the printed totals of the votes cast: every text that is a first choice once, with their number *)
  Record counts (cast : list (list Selection)) (t : list (bytes * N)) : Prop := {
    co_once : NoDup (map fst t);
    co_total : fold_right N.add 0%N (map snd t) = N.of_nat (length cast);
    co_lists : forall c n, In (c, n) t <-> (exists v, In v cast /\ first_choice v c) /\ chosen c cast n
  }.
End Spec.
