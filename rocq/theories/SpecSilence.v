(** * SpecSilence: what keeps the result of an election from being published. *)
From Verif Require Import Base Ident BuildId Crypto Types Store SpecStore SpecValid.
Open Scope list_scope.

Section Spec.
  Context {C : Crypto}.
  (** Law: a threshold decryption has used at least as many shares as the threshold says, each verified against the key proof handed over with it. *)
  Definition combines_verified : Prop :=
    forall k ct l m, threshold_decrypt k ct l = Some m ->
    exists l', incl l' l /\ (u8v k <= N.of_nat (List.length l'))%N
      /\ forall i pf sh, In (i, pf, sh) l' -> share_verify sh pf ct = true.
  (** [pf] is about another key than [pf0]: no share fits both *)
  Definition foreign (pf pf0 : PubkeyProof) : Prop :=
    forall sh ct ct', share_verify sh pf0 ct = true -> share_verify sh pf ct' = false.
  (** the trustees' public keys are where their nodes record them, and [pf] is about none of them *)
  Definition keys_recorded (el : ElectionTx) (pf : PubkeyProof) (h : list STx) : Prop :=
    forall tr, In tr (el_trustees el) ->
    exists k, at_id h (pubkey_build_id (el_id el) (tr_index tr)) (XPublicKey k) /\ foreign pf (kp_proof k).
  (** no decryption of the election in [l] shows a selection *)
  Definition shows_nothing (el : ElectionTx) (l : list STx) : Prop :=
    forall x t, In x l -> s_tx x = XDecryption t -> dc_election t = el_id el -> dc_vote t = [].
End Spec.
