(** * SpecArgs: the command lines that the help of the client describes. *)
From Verif Require Import Base Utf8 Cbor Value Ident Crypto Types Serde.
From Coq Require Strings.String.
From Coq Require Import Sorting.Permutation.
Import String.StringSyntax.
Open Scope list_scope.

(** what a user may ask for *)
Inductive Request :=
| RPost (input : rstring) | RKeygen | RSign (input secret : rstring) | RGet (id : rstring) (pretty : bool)
| RTally (id : rstring) | RAudit (id : rstring) (votes tally results : bool)
| RTrustee (secret : rstring) | RAuthn (secret : rstring) (keysize : rstring)
| RElection (post : bool) | RVote (id vote : rstring) (post : bool) | RVotingEnd (id : rstring) (post : bool).

(** an option with its value, or a switch *)
Definition item := (rstring * option rstring)%type.
Definition if_set (b : bool) (n : rstring) : list item := if b then [(n, None)] else [].

(** [asks r cmd words items]: r is asked for with these words of the command, values and options (main.rs 30-222) *)
Inductive asks : Request -> list rstring -> list rstring -> list item -> Prop :=
| asks_post f : asks (RPost f) [lit "post"] [f] []
| asks_keygen : asks RKeygen [lit "keygen"] [] []
| asks_sign i s : asks (RSign i s) [lit "sign"] [i] [(lit "secret", Some s)]
| asks_get i b : asks (RGet i b) [lit "get"] [i] (if_set b (lit "pretty"))
| asks_tally i : asks (RTally i) [lit "tally"] [i] []
| asks_audit i v t r : asks (RAudit i v t r) [lit "e2e"] [i]
    (if_set v (lit "print-votes") ++ if_set t (lit "print-tally") ++ if_set r (lit "print-results"))
| asks_trustee s : asks (RTrustee s) [lit "trustee"; lit "generate"] [] [(lit "secret", Some s)]
| asks_authn s : asks (RAuthn s (lit "4096")) [lit "authn"; lit "generate"] [] [(lit "secret", Some s)]
| asks_authn_size s k : asks (RAuthn s k) [lit "authn"; lit "generate"] [] [(lit "secret", Some s); (lit "keysize", Some k)]
| asks_election b : asks (RElection b) [lit "election"; lit "generate"] [] (if_set b (lit "post"))
| asks_vote i v b : asks (RVote i v b) [lit "vote"; lit "generate"] [i; v] (if_set b (lit "post"))
| asks_end i b : asks (RVotingEnd i b) [lit "voting_end"; lit "generate"] [i] (if_set b (lit "post")).

(** a value does not look like an option; a single dash is a value *)
Definition plain (w : rstring) : Prop := match sv w with x2d :: _ :: _ => False | _ => True end.
(** how an option may be written: --post, --secret FILE, --secret=FILE *)
Inductive written : item -> list rstring -> Prop :=
| w_switch n t : sv t = [x2d; x2d] ++ sv n -> written (n, None) [t]
| w_apart n v t : sv t = [x2d; x2d] ++ sv n -> plain v -> written (n, Some v) [t; v]
| w_joined n v t : sv t = [x2d; x2d] ++ sv n ++ x3d :: sv v -> (forall r, sv v <> x3d :: r) -> written (n, Some v) [t].
(** values in their order, options in theirs, mixed in any way *)
Inductive mixed : list rstring -> list item -> list rstring -> Prop :=
| mixed_nil : mixed [] [] []
| mixed_word w ws os l : plain w -> mixed ws os l -> mixed (w :: ws) os (w :: l)
| mixed_item o os ws l k : written o k -> mixed ws os l -> mixed ws (o :: os) (k ++ l).
Definition line_for (r : Request) (l : list rstring) : Prop :=
  exists cmd ws os os' rest, asks r cmd ws os /\ Permutation os os' /\ mixed ws os' rest /\ l = cmd ++ rest.

(** the words that name a command *)
Definition commands : list rstring :=
  [lit "keygen"; lit "sign"; lit "get"; lit "post"; lit "tally"; lit "e2e"; lit "trustee"; lit "authn"; lit "election"; lit "voting_end"; lit "vote"; lit "help"].
(** a number in decimal digits, below 2^64 *)
Definition digit (c : byte) (d : N) : Prop := (d < 10)%N /\ u8v c = (48 + d)%N.
Inductive numeral : bytes -> N -> Prop :=
| num_one c d : digit c d -> numeral [c] d
| num_more l n c d : numeral l n -> digit c d -> (10 * n + d < 2^64)%N -> numeral (l ++ [c]) (10 * n + d).
(** election generate and voting_end generate sign with the user's key *)
Definition needs_key (r : Request) : Prop := match r with RElection _ | RVotingEnd _ _ => True | _ => False end.
