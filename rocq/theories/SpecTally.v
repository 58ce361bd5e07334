(** * SpecTally: what the totals of an election should be. *)
From Verif Require Import Base Utf8 Types Tally.
From Coq Require Import Permutation.
Open Scope list_scope.

(** a tally may list its totals in any order *)
Definition fair (order : forall K, list (K * N) -> list (K * N)) : Prop := forall K l, Permutation (order K l) l.

Definition named (v : list Selection) (c : bytes) : Prop := exists s, In s v /\ text s = c.
(** [n] is the sum over the ballots of what each is worth to [k] *)
Definition total_by {K} (worth : list Selection -> K -> N -> Prop) (votes : list (list Selection)) (k : K) (n : N) : Prop :=
  exists ns, Forall2 (fun v m => worth v k m) votes ns /\ n = fold_right N.add 0%N ns.
(** one line for every candidate named on a ballot, with the candidate's total *)
Definition reports (worth : list Selection -> bytes -> N -> Prop) (votes : list (list Selection)) (t : list (bytes * N)) : Prop :=
  NoDup (map fst t)
  /\ forall c n, In (c, n) t <-> (exists v, In v votes /\ named v c) /\ total_by worth votes c n.

(** plurality and approval: the number of times the ballot names the candidate *)
Inductive times (amount : Selection -> N) : list Selection -> bytes -> N -> Prop :=
| t_nil : forall c, times amount [] c 0
| t_hit : forall s v c n, text s = c -> times amount v c n -> times amount (s :: v) c (amount s + n)
| t_miss : forall s v c n, text s <> c -> times amount v c n -> times amount (s :: v) c n.

(** ranked ballots: the number of selections in front of the [c]-selection; of two selections with
    the same score the one written first is in front *)
Definition count (f : Selection -> bool) (l : list Selection) : nat := length (filter f l).
Definition placed (v : list Selection) (c : bytes) (i : nat) : Prop :=
  exists p s q, v = p ++ s :: q /\ text s = c
    /\ i = count (fun x => score x <=? score s)%N p + count (fun x => score x <? score s)%N q.
Definition ranked_worth (points : nat -> N -> N) (v : list Selection) (c : bytes) (n : N) : Prop :=
  (~ named v c /\ n = 0%N) \/ exists i, placed v c i /\ n = points (length v) (N.of_nat i).
(** the number of candidates named on any ballot *)
Definition candidates (votes : list (list Selection)) (n : nat) : Prop :=
  exists l, NoDup l /\ (forall c, In c l <-> exists v, In v votes /\ named v c) /\ n = length l.

(** a ballot that names nobody twice *)
Definition no_repeat (v : list Selection) : Prop := NoDup (map text v).
(** the ballot ranks [a] strictly before [b] *)
Definition prefers (v : list Selection) (a b : bytes) : Prop :=
  exists s s', In s v /\ In s' v /\ text s = a /\ text s' = b /\ (score s < score s')%N.
Definition pair_worth (v : list Selection) (p : bytes * bytes) (n : N) : Prop :=
  (prefers v (fst p) (snd p) /\ n = 1%N) \/ (~ prefers v (fst p) (snd p) /\ n = 0%N).
(** no candidate's text contains the character that separates the two in a label *)
Definition plain_name (c : bytes) : Prop := ~ In x3e c.
