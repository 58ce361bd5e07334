(** * SpecHist: histories of accepted transactions.

    A history is the list, oldest first, of transactions each of which was accepted against
    the store of the previous ones and whose identifier was not yet in use (the append-only
    rule of the ledger, cryptoballot_exonum/src/lib.rs 142-177). *)
From Verif Require Import Base Ident Crypto Types Store SpecStore Validate.

Section Spec.
  Context {C : Crypto}.

  Definition fresh (l : list STx) (i : Identifier) : Prop := forall y, In y l -> s_id y <> i.

  Inductive history (dbg : bool) : list STx -> Prop :=
  | hist_nil : history dbg []
  | hist_snoc : forall l x, history dbg l -> fresh l (s_id x) ->
      validate dbg (ms_store (ms_from l)) x = Ok tt -> history dbg (l ++ [x]).
End Spec.
