(** * SpecReport: a text as lines, and numbers in digits. *)
From Verif Require Import Base Types SpecOutcome SpecResults.
From Coq Require Strings.String.
Import String.StringSyntax.
Open Scope list_scope.

(** the text consists of these lines, each with its line break *)
Inductive in_lines : bytes -> list bytes -> Prop :=
| il_nil : in_lines [] []
| il_cons l t ls : one_line l -> in_lines t ls -> in_lines (l ++ x0a :: t) (l :: ls).
(** [d] is the number [n] in decimal *)
Definition digits_of (d : bytes) (n : N) : Prop :=
  d <> [] /\ Forall (fun b => (48 <= u8v b <= 57)%N) d /\ fold_left (fun a b => (10 * a + (u8v b - 48))%N) d 0%N = n.

Notation bs s := (String.list_byte_of_string s).
(** the two lines of one selection *)
Definition selection_lines (ls : list bytes) (x : N * bytes) : Prop :=
  exists d, digits_of d (fst x) /\ ls = [bs "  " ++ d ++ bs ":" ++ snd x; []].
(** the line of one candidate *)
Definition count_line (l : bytes) (p : bytes * N) : Prop :=
  exists d, digits_of d (snd p) /\ l = bs "  " ++ fst p ++ bs " got " ++ d ++ bs " votes".
(** what can be read in a report: what was asked for, the selections in order, the counts, the winner *)
Record reading := mk_reading {
  rd_votes : option (list (N * bytes)); rd_counts : option (list (bytes * N)); rd_winner : option bytes
}.
Definition votes_lines (ls : list bytes) (o : option (list (N * bytes))) : Prop :=
  match o with None => ls = [] | Some xs => exists rows, Forall2 selection_lines rows xs /\ ls = bs "Votes:" :: concat rows end.
Definition counts_lines (ls : list bytes) (o : option (list (bytes * N))) : Prop :=
  match o with None => ls = [] | Some t => exists rows, Forall2 count_line rows t /\ ls = bs "Tally:" :: rows end.
Definition winner_lines (ls : list bytes) (o : option bytes) : Prop :=
  match o with None => ls = [] | Some w => ls = [bs "Results:"; bs "  The winner is " ++ w] end.
Definition reads (text : bytes) (r : reading) : Prop :=
  exists v c w, in_lines text (bs "> Election verified OK" :: v ++ c ++ w)
    /\ votes_lines v (rd_votes r) /\ counts_lines c (rd_counts r) /\ winner_lines w (rd_winner r).
