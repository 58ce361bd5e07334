(** * SpecResults: who won, and which texts print without ambiguity. *)
From Verif Require Import Base Utf8 Types SpecOutcome.
Open Scope list_scope.

(** [c] is the first choice of at least one vote and nothing is the first choice of more votes *)
Definition most (cast : list (list Selection)) (c : bytes) : Prop :=
  exists n, chosen c cast n /\ (0 < n)%N /\ forall c' n', chosen c' cast n' -> (n' <= n)%N.
(** the first choice of more votes than any other *)
Definition ahead (cast : list (list Selection)) (c : bytes) : Prop :=
  exists n, chosen c cast n /\ forall c' n', c' <> c -> chosen c' cast n' -> (n' < n)%N.
(** no line break *)
Definition one_line (c : bytes) : Prop := ~ In x0a c.
