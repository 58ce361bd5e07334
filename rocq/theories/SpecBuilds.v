(** * SpecBuilds: the same program built with and without overflow checks. *)
From Verif Require Import Base Ident Crypto Types.
Open Scope list_scope.

(** the checked build [a] gives what the unchecked build [b] gives, or it stops on an overflow *)
Definition same_or_stops {E A} (a b : res E A) : Prop := a = b \/ a = Panic POverflow.

Section Spec.
  Context {C : Crypto}.
  (** an election numbers its trustees from 1 to at most [n] *)
  Definition numbered (n : N) (x : STx) : Prop :=
    forall el tr, s_tx x = XElection el -> In tr (el_trustees el) -> (1 <= u8v (tr_index tr) <= n)%N.
  (** a mix made by trustee 0, or after mix number 255: what the two builds judge differently *)
  Definition past_the_end (earlier : Identifier -> option STx) (m : MixTx) : Prop :=
    mx_trustee m = x00
    \/ exists p x pm, mx_prev m = Some p /\ earlier p = Some x /\ s_tx x = XMix pm /\ mx_index pm = xff.
End Spec.
