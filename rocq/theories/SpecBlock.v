(** * SpecBlock: what stops an election. *)
From Verif Require Import Base Ident Crypto Types Store SpecStore SpecValid Trustee Tasks.
Open Scope list_scope.

Section Spec.
  Context {C : Crypto}.
  (** a trustee as the election lists it; whom a public key transaction says it is from *)
  Definition seat (tr : Trustee) : byte * PublicKey := (tr_index tr, tr_public_key tr).
  Definition seat_of (p : PublicKeyTx) : byte * PublicKey := (kp_trustee p, kp_public p).
  (** no encryption key of election [e] is recorded, wherever it is stored *)
  Definition keyless (e : Identifier) (h : list STx) : Prop :=
    forall x t, In x h -> s_tx x = XEncryptionKey t -> ek_election t <> e.
  (** the votes of [e] in [h], if any, were admitted because of the key of another election *)
  Definition misled (e : Identifier) (h : list STx) : Prop :=
    forall x v, In x h -> s_tx x = XVote v -> vt_election v = e ->
      exists y t, In y h /\ s_id y = slot0 e TEncryptionKey /\ s_tx y = XEncryptionKey t /\ ek_election t <> e.
  (** [x] is a transaction by the owner of [sk] *)
  Definition by_owner (sk : ed_secret) (x : STx) : Prop :=
    tx_public (s_tx x) = Some (ed_public sk) /\ signed_by (ed_public sk) x.
End Spec.

Section Alone.
  Context {C : Crypto} {TC : TCrypto}.
  (** [h'] was recorded after [h] by the nodes [ns] alone, answering what was recorded *)
  Inductive left_to (dbg : bool) (ns : list ed_secret) (h : list STx) : list STx -> Prop :=
  | lt_none : left_to dbg ns h []
  | lt_answer : forall h' h1 h2 sk r x l y, left_to dbg ns h h' -> h ++ h' = h1 ++ h2 -> In sk ns -> In x h1 ->
      generate_transactions dbg sk r (ms_store (ms_from h1)) x = Ok l -> In y l -> left_to dbg ns h (h' ++ [y]).
End Alone.
