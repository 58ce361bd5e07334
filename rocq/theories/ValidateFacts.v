(** * ValidateFacts: inversion lemmas for the validation functions. *)
From Verif Require Import Base BaseFacts Hex HexFacts Utf8 Cbor CborFacts Ident BuildId IdentFacts Crypto Types
  Serde SerdeFacts Store Prost Validate.
From Coq Require Import ZifyBool ZifyNat ZifyN.
Open Scope list_scope.

Lemma tt_eqb_refl t : tt_eqb t t = true.
Proof. apply tt_eqb_eq. reflexivity. Qed.
Lemma byte_eqb_refl b : Byte.eqb b b = true.
Proof. apply byte_eqb_eq. reflexivity. Qed.

(** ** CBOR equality *)
Lemma cval_eqb_eq a : forall b, cval_eqb a b = true <-> a = b.
Proof.
  induction a using cval_ind'; intros v; destruct v; cbn [cval_eqb]; try (split; congruence).
  - rewrite u_eqb_eq. split; congruence.
  - rewrite u_eqb_eq. split; congruence.
  - rewrite bytes_eqb_eq. split; congruence.
  - rewrite rs_eqb_eq. split; congruence.
  - transitivity (l = l0); [|split; congruence]. revert l0.
    induction H as [|x l Hx _ IH]; intros [|y m]; try (split; congruence).
    rewrite andb_true_iff, Hx, IH. split; [intros [-> ->]; reflexivity|]. intros E; injection E; auto.
  - transitivity (l = l0); [|split; congruence]. revert l0.
    induction H as [|[x1 x2] l [Hx1 Hx2] _ IH]; intros [|[y1 y2] m]; try (split; congruence).
    rewrite !andb_true_iff, IH. cbn [fst snd] in *. rewrite Hx1, Hx2.
    split; [intros [[-> ->] ->]; reflexivity|]. intros E; injection E; auto.
  - destruct b, b0; cbn; split; congruence.
  - rewrite u_eqb_eq. split; congruence.
  - rewrite u_eqb_eq. split; congruence.
Qed.

Lemma map_err_ok {E F A} (f : E -> F) (m : res E A) a : map_err f m = Ok a <-> m = Ok a.
Proof. destruct m; cbn; split; congruence. Qed.
Lemma ok_or_ok {E A} (o : option A) (e : E) a : ok_or o e = Ok a <-> o = Some a.
Proof. destruct o; cbn; split; congruence. Qed.
Lemma or_panic_ok {E A} (o : option A) p a : @or_panic E A o p = Ok a <-> o = Some a.
Proof. destruct o; cbn; split; congruence. Qed.
Lemma lift_ok {E A} (m : res Empty_set A) a : @lift E A m = Ok a <-> m = Ok a.
Proof. destruct m as [x|[]|p]; cbn; split; congruence. Qed.

(** invert a successful sequence of checks *)
Ltac inv_ok :=
  repeat match goal with
  | H : bind _ _ = Ok _ |- _ =>
      let a := fresh "a" in let H1 := fresh "H" in let H2 := fresh "H" in
      apply bind_ok in H as (a & H1 & H2)
  | H : fail_if _ _ = Ok ?u |- _ => apply fail_if_ok in H; try destruct u
  | H : map_err _ _ = Ok _ |- _ => apply map_err_ok in H
  | H : ok_or _ _ = Ok _ |- _ => apply ok_or_ok in H
  | H : or_panic _ _ = Ok _ |- _ => apply or_panic_ok in H
  | H : lift _ = Ok _ |- _ => apply lift_ok in H
  | H : Ok _ = Ok _ |- _ => injection H as H
  | H : negb _ = false |- _ => apply negb_false_iff in H
  end.
Section Facts.
  Context {C : Crypto}.

  Lemma pk_eqb_eq (a b : PublicKey) : pk_eqb a b = true <-> a = b.
  Proof. unfold pk_eqb. rewrite arr_eqb_eq. split; [apply sub_ext|congruence]. Qed.
  Lemma egpk_eqb_eq (a b : EGPublicKey) : egpk_eqb a b = true <-> a = b.
  Proof. unfold egpk_eqb. rewrite cval_eqb_eq. split; [apply sub_ext|congruence]. Qed.
  Lemma ids_eqb_eq a : forall b, ids_eqb a b = true <-> a = b.
  Proof.
    induction a as [|x a IH]; intros [|y b]; cbn [ids_eqb]; try (split; congruence).
    rewrite andb_true_iff, IH, id_eqb_eq. split; [intros [-> ->]; reflexivity|].
    intros E; injection E; auto.
  Qed.
  Lemma sel_eqb_eq a b : sel_eqb a b = true <-> a = b.
  Proof.
    destruct a as [w s t], b as [w' s' t']. unfold sel_eqb. cbn [sel_write_in sel_score sel_text].
    rewrite !andb_true_iff, Bool.eqb_true_iff, u_eqb_eq, rs_eqb_eq.
    split; [intros [[-> ->] ->]; reflexivity|]. intros E; injection E; auto.
  Qed.
  Lemma sels_eqb_eq a : forall b, sels_eqb a b = true <-> a = b.
  Proof.
    induction a as [|x a IH]; intros [|y b]; cbn [sels_eqb]; try (split; congruence).
    rewrite andb_true_iff, IH, sel_eqb_eq. split; [intros [-> ->]; reflexivity|].
    intros E; injection E; auto.
  Qed.

  (** ** signatures *)
  Lemma verify_signature_ok x u :
    verify_signature x = Ok u <->
    forall p, tx_public (s_tx x) = Some p -> ed_verify p (tx_bytes (s_tx x)) (s_sig x) = true.
  Proof.
    unfold verify_signature. destruct u. destruct (tx_public (s_tx x)) as [p|].
    - destruct (ed_verify p _ _) eqn:E; split; intros H; auto; try discriminate.
      + intros q Hq. injection Hq as <-. exact E.
      + specialize (H p eq_refl). congruence.
    - split; auto. intros _ q Hq. discriminate.
  Qed.
  Lemma sign_ok sk t x :
    sign sk t = Ok x <->
    x = mk_stx t (ed_sign sk (tx_bytes t)) /\ forall p, tx_public t = Some p -> p = ed_public sk.
  Proof.
    unfold sign. destruct (tx_public t) as [p|].
    - destruct (pk_eqb (ed_public sk) p) eqn:E.
      + apply pk_eqb_eq in E. split.
        * intros H. injection H as <-. split; [reflexivity|]. intros q Hq. congruence.
        * intros [-> _]. reflexivity.
      + split; [discriminate|]. intros [-> H]. specialize (H p eq_refl).
        assert (pk_eqb (ed_public sk) p = true) by (apply pk_eqb_eq; congruence). congruence.
    - split; [intros H; injection H as <-; split; [reflexivity|discriminate]|intros [-> _]; reflexivity].
  Qed.
  Lemma sign_err sk t p :
    tx_public t = Some p -> p <> ed_public sk -> sign sk t = Err MismatchedPublicKeys.
  Proof.
    intros Hp Hn. unfold sign. rewrite Hp. destruct (pk_eqb (ed_public sk) p) eqn:E; [|reflexivity].
    apply pk_eqb_eq in E. congruence.
  Qed.

  Lemma validate_ok dbg s x :
    validate dbg s x = Ok tt <->
    id_type (s_id x) = s_type x /\ verify_signature x = Ok tt /\ validate_tx dbg s (s_tx x) = Ok tt.
  Proof.
    unfold validate. split.
    - intros H. inv_ok. destruct a0. apply tt_eqb_eq in H0. auto.
    - intros (A & B & D). apply tt_eqb_eq in A. rewrite A, B. exact D.
  Qed.
  Lemma validate_signed dbg s x p :
    validate dbg s x = Ok tt -> tx_public (s_tx x) = Some p ->
    ed_verify p (tx_bytes (s_tx x)) (s_sig x) = true.
  Proof. intros H Hp. apply validate_ok in H as (_ & H & _). exact (proj1 (verify_signature_ok x tt) H p Hp). Qed.
End Facts.
