(** * SpecWhite: white space of Unicode (property White_Space), as a set of characters. *)
From Verif Require Import Base SpecDoc.
Open Scope list_scope.

Definition White (n : N) : Prop :=
  (9 <= n <= 13 \/ n = 32 \/ n = 133 \/ n = 160 \/ n = 5760 \/ 8192 <= n <= 8202 \/ n = 8232 \/ n = 8233 \/ n = 8239 \/ n = 8287 \/ n = 12288)%N.
(** one character of white space, and a text of nothing else *)
Definition white_char (u : bytes) : Prop := exists n, White n /\ utf8_form n u.
Definition white_text (w : bytes) : Prop := exists us, Forall white_char us /\ w = concat us.
(** [t] is [l] without the white space at its two ends *)
Definition trimmed (l t : bytes) : Prop :=
  (exists w1 w2, white_text w1 /\ white_text w2 /\ l = w1 ++ t ++ w2)
  /\ forall u, white_char u -> (forall r, t <> u ++ r) /\ (forall r, t <> r ++ u).
