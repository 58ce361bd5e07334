(** * SpecRest: replies of nodes to what is recorded. *)
From Verif Require Import Base Ident Crypto Types Store SpecStore SpecValid SpecHist Trustee Tasks SpecService.
Open Scope list_scope.

Section Spec.
  Context {C : Crypto} {TC : TCrypto}.
  (** [y] is a reply of some node to [x], given at some time in the history [h] *)
  Definition replied (dbg : bool) (h : list STx) (x y : STx) : Prop :=
    exists h1 h2 sk r l, h = h1 ++ h2 /\ In x h1 /\ generate_transactions dbg sk r (ms_store (ms_from h1)) x = Ok l /\ In y l.
  (** recorded transactions, newest first, each a reply to the one after it in the list *)
  Inductive exchange (dbg : bool) (h : list STx) : list STx -> Prop :=
  | ex_one x : In x h -> exchange dbg h [x]
  | ex_more x y l : exchange dbg h (x :: l) -> In y h -> replied dbg h x y -> exchange dbg h (y :: x :: l).
  (** the election a transaction is about *)
  Definition about (t : Tx) : Identifier :=
    match named_election t with Some e => e | None => tx_id t end.
  (** which kind of transaction replies to which *)
  Definition next_step (t t' : Tx) : Prop :=
    match t, t' with
    | XElection _, XCommitment _ | XCommitment _, XShare _ | XShare _, XPublicKey _ | XPublicKey _, XEncryptionKey _
    | XVotingEnd _, XMix _ | XVotingEnd _, XPartial _ | XMix _, XMix _ | XMix _, XPartial _ | XPartial _, XDecryption _ => True
    | _, _ => False
    end.
  (** the ciphertext rows in the votes recorded for election [e]: one for each contest of each vote *)
  Definition rows_cast (h : list STx) (e : Identifier) : nat :=
    list_sum (map (fun x => match s_tx x with XVote v => List.length (vt_votes v) | _ => 0 end) (listed h e TVote)).
  (** the most replies one node can give to one transaction *)
  Definition most (h : list STx) (t : Tx) : nat :=
    match t with
    | XElection _ | XCommitment _ | XShare _ | XPublicKey _ | XPartial _ => 1
    | XVotingEnd ve => rows_cast h (ve_election ve)
    | XMix m => Nat.max 1 (List.length (mx_out m))
    | XEncryptionKey _ | XVote _ | XDecryption _ => 0
    end.
End Spec.
