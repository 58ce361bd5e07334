(** * SpecMix: chains of mixes, shuffle soundness. *)
From Verif Require Import Base Ident Crypto Types SpecStore SpecValid.
From Coq Require Import Sorting.Permutation Sorting.Sorted.
Open Scope list_scope.

Section Spec.
  Context {C : Crypto}.
  Implicit Types (l : list STx).

  (** [chain l m m0]: following [prev_mix_id] inside [l] leads from [m] to the first mix [m0] *)
  Inductive chain l : MixTx -> MixTx -> Prop :=
  | chain_first : forall m, at_id l (mx_id m) (XMix m) -> mx_prev m = None -> mx_index m = x00 ->
      mx_trustee m = x01 -> chain l m m
  | chain_next : forall m p pm m0, at_id l (mx_id m) (XMix m) -> mx_prev m = Some p -> at_id l p (XMix pm) ->
      u8v (mx_index m) = (u8v (mx_index pm) + 1)%N ->
      u8v (mx_trustee m) = ((u8v (mx_index m) + 1) mod 256)%N ->
      mx_election m = mx_election pm -> mx_contest m = mx_contest pm -> mx_batch m = mx_batch pm ->
      mx_votes m = mx_votes pm -> chain l pm m0 -> chain l m m0.

  (** [ids] are exactly the identifiers of the votes of election [e] in [p], each once, ascending *)
  Definition all_votes (p : list STx) (e : Identifier) (ids : list Identifier) : Prop :=
    StronglySorted id_lt ids
    /\ forall i, In i ids <-> exists y, In y p /\ in_range e TVote y /\ s_id y = i.

  (** Law: an accepted shuffle proof shows that the rows are a rearrangement of the same
      plaintext rows, where [D k] is decryption under the secret belonging to [k]. *)
  Definition shuffle_sound {M} (D : EGPublicKey -> Ciphertext -> M) : Prop :=
    forall seed n ins outs k pf, shuffle_verify seed n ins outs k pf = true ->
      Permutation (map (map (D k)) ins) (map (map (D k)) outs).
End Spec.
