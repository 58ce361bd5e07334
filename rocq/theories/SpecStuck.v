(** * SpecStuck: histories in which the last stages of an election are left to the nodes. *)
From Verif Require Import Base Ident Crypto Types Store Validate SpecHist SpecValid Trustee Tasks.
Open Scope list_scope.

Section Spec.
  Context {C : Crypto} {TC : TCrypto}.
  Variables (dbg : bool) (el : ElectionTx).
  (** a mix, partial decryption or decryption of the election *)
  Definition closing (x : STx) : Prop :=
    match s_tx x with
    | XMix m => mx_election m = el_id el | XPartial p => pd_election p = el_id el | XDecryption d => dc_election d = el_id el
    | _ => False end.
  (** anybody may record anything else that is accepted; mixes, partial decryptions and decryptions of the election are
      answers to recorded transactions, by any node with any random values, against the ledger of any time *)
  Inductive driven : list STx -> Prop :=
  | dr_nil : driven []
  | dr_other : forall h x, driven h -> ~ closing x -> (forall el', s_tx x = XElection el' -> el_id el' = el_id el -> el' = el) ->
      fresh h (s_id x) -> validate dbg (ms_store (ms_from h)) x = Ok tt -> driven (h ++ [x])
  | dr_node : forall h1 h2 sk r x l y, driven (h1 ++ h2) -> In x h1 ->
      generate_transactions dbg sk r (ms_store (ms_from h1)) x = Ok l -> In y l ->
      fresh (h1 ++ h2) (s_id y) -> validate dbg (ms_store (ms_from (h1 ++ h2))) y = Ok tt -> driven ((h1 ++ h2) ++ [y]).
End Spec.
