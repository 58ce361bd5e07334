(** * ValidFacts: each validation function accepts exactly what SpecValid.v describes. *)
From Verif Require Import Base BaseFacts Hex HexFacts Utf8 Cbor CborFacts Ident BuildId IdentFacts Crypto Types
  Serde SerdeFacts Store SpecStore StoreFacts Prost Validate ValidateFacts SpecValid.
From Coq Require Import ZifyBool ZifyNat ZifyN.
Open Scope list_scope.

(** ** lists *)
Lemma find_first {A} (f : A -> bool) (P : A -> Prop) l a :
  (forall x, f x = true <-> P x) -> (find f l = Some a <-> first_with P l a).
Proof.
  intros F. split.
  - induction l as [|x l IH]; cbn [find]; [discriminate|]. destruct (f x) eqn:E.
    + intros H. injection H as ->. exists [], l. split; [reflexivity|]. split; [apply F, E|intros b []].
    + intros H. destruct (IH H) as (pre & post & -> & Ha & Hp). exists (x :: pre), post.
      split; [reflexivity|]. split; [exact Ha|]. intros b [<-|Hb]; [|auto].
      intros Px. apply F in Px. congruence.
  - intros (pre & post & -> & Ha & Hp). induction pre as [|x pre IH]; cbn [app find].
    + apply F in Ha. rewrite Ha. reflexivity.
    + destruct (f x) eqn:E; [apply F in E; exfalso; exact (Hp x (or_introl eq_refl) E)|].
      apply IH. intros b Hb. apply Hp. right. exact Hb.
Qed.
Lemma find_none_iff {A} (f : A -> bool) (P : A -> Prop) l :
  (forall x, f x = true <-> P x) -> (find f l = None <-> forall a, In a l -> ~ P a).
Proof.
  intros F. split.
  - intros E a Ha Pa. apply F in Pa. pose proof (find_none _ _ E _ Ha). congruence.
  - intros H. destruct (find f l) as [a|] eqn:E; [|reflexivity]. apply find_some in E as [Ha Fa].
    apply F in Fa. exfalso. exact (H a Ha Fa).
Qed.
Lemma first_in {A} (P : A -> Prop) l a : first_with P l a -> In a l /\ P a.
Proof. intros (pre & post & -> & Ha & _). split; [|exact Ha]. apply in_or_app. right. left. reflexivity. Qed.
Lemma mem_key_in {K} (eqb : K -> K -> bool) (E : forall a b, eqb a b = true <-> a = b) k l :
  mem_key eqb k l = true <-> In k l.
Proof.
  induction l as [|x l IH]; cbn [mem_key In]; [split; [discriminate|tauto]|].
  rewrite orb_true_iff, E, IH. intuition.
Qed.
Lemma assoc_in {K V} (eqb : K -> K -> bool) (E : forall a b, eqb a b = true <-> a = b) k (v : V) l :
  nodup_keys eqb l = true -> (assoc eqb k l = Some v <-> In (k, v) l).
Proof.
  induction l as [|[x w] l IH]; cbn [nodup_keys assoc In]; [split; [discriminate|tauto]|].
  rewrite andb_true_iff. intros [A B]. destruct (eqb k x) eqn:F.
  - apply E in F. subst x. split.
    + intros X. injection X as ->. auto.
    + intros [X|X]; [congruence|]. exfalso. apply negb_true_iff in A.
      assert (mem_key eqb k (map fst l) = true) by (apply (mem_key_in _ E); apply (in_map fst) in X; exact X).
      congruence.
  - rewrite IH by exact B. split; auto. intros [X|X]; [|exact X]. injection X as -> ->.
    assert (eqb k k = true) by (apply E; reflexivity). congruence.
Qed.
Lemma existsb_ex {A} (f : A -> bool) (P : A -> Prop) l :
  (forall x, f x = true <-> P x) -> (existsb f l = true <-> exists x, In x l /\ P x).
Proof.
  intros F. rewrite existsb_exists. split; intros (x & Hx & E); exists x; (split; [exact Hx|]); apply F, E.
Qed.
Lemma map_res_into {E A B} (f : A -> option B) (mk : B -> A) p l r :
  (forall a b, f a = Some b <-> a = mk b) ->
  (map_res (fun a => @or_panic E B (f a) p) l = Ok r <-> l = map mk r).
Proof.
  intros F. revert r. induction l as [|a l IH]; intros r; cbn [map_res].
  - split; [intros H; injection H as <-; reflexivity|]. destruct r; [reflexivity|discriminate].
  - split.
    + intros X. apply bind_ok in X as (y & A1 & X). apply bind_ok in X as (ys & A2 & X). injection X as <-.
      apply or_panic_ok in A1. apply F in A1. apply IH in A2. subst. reflexivity.
    + destruct r as [|b r]; [discriminate|]. cbn [map]. intros H. injection H as -> H.
      rewrite (proj2 (F _ _) eq_refl). cbn [or_panic bind]. rewrite (proj2 (IH _) H). reflexivity.
Qed.
Lemma fail_if_tt {E} (c : bool) (e : E) : fail_if c e = Ok tt <-> c = false.
Proof. apply fail_if_ok. Qed.
Lemma seq_ok {E B} (m : res E unit) (k : res E B) b : (m ;; k) = Ok b <-> m = Ok tt /\ k = Ok b.
Proof. rewrite bind_ok. split; [intros ([] & A & D); auto|intros [A D]; exists tt; auto]. Qed.
Lemma for_each_iff {E A} (l : list A) (f : A -> res E unit) :
  for_each l f = Ok tt <-> forall x, In x l -> f x = Ok tt.
Proof.
  induction l as [|x l IH]; cbn [for_each In].
  - split; [intros _ x []|reflexivity].
  - rewrite seq_ok, IH. split; [intros [A1 B1] y [<-|Hy]; auto|]. intros H. split; intros; apply H; auto.
Qed.

Section Facts.
  Context {C : Crypto}.
  Variables (s : Store) (L : list STx).
  Hypothesis H : holds s L.
  Let asc : ascending L := h_asc _ _ H.

  (** ** lookups *)
  Lemma at_id_entry i t : at_id L i t <-> exists x, entry L i = Some x /\ s_tx x = t.
  Proof.
    split.
    - intros (x & Hx & Hi & Ht). exists x. split; [|exact Ht]. apply entry_in; auto.
    - intros (x & Hx & Ht). apply entry_in in Hx as [Hx Hi]; [|exact asc]. exists x. auto.
  Qed.
  Lemma occupied_entry i : occupied L i <-> entry L i <> None.
  Proof.
    split.
    - intros (x & Hx & Hi). assert (E : entry L i = Some x) by (apply entry_in; auto). congruence.
    - destruct (entry L i) as [x|] eqn:E; [|congruence]. intros _.
      apply entry_in in E as [Hx Hi]; [|exact asc]. exists x. auto.
  Qed.
  Lemma at_id_fun i t u : at_id L i t -> at_id L i u -> t = u.
  Proof. rewrite !at_id_entry. intros (x & A & <-) (y & B & <-). congruence. Qed.

  Lemma typed_at {A} (proj : Tx -> option A) mk ty i r :
    (forall t a, proj t = Some a <-> t = mk a) ->
    (exists g, get_typed proj ty s i = Ok (r, g)) <-> at_id L i (mk r).
  Proof.
    intros P. rewrite at_id_entry. split.
    - intros (g & E). apply (holds_typed _ _ _ _ _ _ H) in E as (x & E & Hp & _). exists x.
      split; [exact E|]. apply P, Hp.
    - intros (x & E & Hx). exists (s_sig x). apply (holds_typed _ _ _ _ _ _ H). exists x.
      split; [exact E|]. split; [apply P, Hx|reflexivity].
  Qed.
  Lemma as_election_iff t a : as_election t = Some a <-> t = XElection a.
  Proof. destruct t; cbn; split; congruence. Qed.
  Lemma as_pubkey_iff t a : as_pubkey t = Some a <-> t = XPublicKey a.
  Proof. destruct t; cbn; split; congruence. Qed.
  Lemma as_vote_iff t a : as_vote t = Some a <-> t = XVote a.
  Proof. destruct t; cbn; split; congruence. Qed.
  Lemma as_mix_iff t a : as_mix t = Some a <-> t = XMix a.
  Proof. destruct t; cbn; split; congruence. Qed.
  Lemma as_enckey_iff t a : as_enckey t = Some a <-> t = XEncryptionKey a.
  Proof. destruct t; cbn; split; congruence. Qed.
  Lemma as_partial_iff t a : as_partial t = Some a <-> t = XPartial a.
  Proof. destruct t; cbn; split; congruence. Qed.

  Lemma election_of_iff i e : election_of s i = Ok e <-> at_id L i (XElection e).
  Proof.
    rewrite <- (typed_at as_election XElection TElection i e as_election_iff). unfold election_of, q, get_election.
    split.
    - intros E. inv_ok. destruct a as [e' g]. cbn [fst] in *. subst. exists g. assumption.
    - intros (g & E). rewrite E. reflexivity.
  Qed.
  Lemma get_iff i o : st_get s i = Ok o <-> o = entry L i.
  Proof. rewrite (h_get _ _ H). split; congruence. Qed.

  Lemma trustee_exists_iff e i k : trustee_exists e i k = true <-> lists_trustee e i k.
  Proof.
    unfold trustee_exists, lists_trustee. apply existsb_ex. intros x.
    rewrite andb_true_iff, byte_eqb_eq, pk_eqb_eq. tauto.
  Qed.

  (** ** election *)
  Lemma validate_election_iff t :
    validate_election t = Ok tt <->
    el_id t = slot0 (el_id t) TElection
    /\ (u8v (el_threshold t) <= N.of_nat (length (el_trustees t)))%N
    /\ (u8v (el_auth_threshold t) <= N.of_nat (length (el_authenticators t)) mod 256)%N.
  Proof.
    unfold validate_election. rewrite !seq_ok, !fail_if_tt, negb_false_iff, id_eqb_eq, u8v_u8_of, !N.ltb_ge.
    unfold election_build_id, slot0. intuition.
  Qed.

  (** ** key generation *)
  Lemma validate_commitment_iff t : validate_commitment s t = Ok tt <-> ok_commitment L t.
  Proof.
    unfold validate_commitment, ok_commitment. rewrite bind_ok.
    split; intros (e & A & B); exists e; rewrite election_of_iff, fail_if_tt, negb_false_iff, trustee_exists_iff in *; auto.
  Qed.
  Lemma validate_pubkey_iff t : validate_pubkey s t = Ok tt <-> ok_pubkey L t.
  Proof.
    unfold validate_pubkey, ok_pubkey. rewrite bind_ok.
    split; intros (e & A & B); exists e; rewrite election_of_iff, fail_if_tt, negb_false_iff, trustee_exists_iff in *; auto.
  Qed.
  Lemma validate_votingend_iff t : validate_votingend s t = Ok tt <-> ok_votingend L t.
  Proof.
    unfold validate_votingend, ok_votingend. rewrite bind_ok.
    split; intros (e & A & B); exists e; rewrite election_of_iff, fail_if_tt, negb_false_iff, pk_eqb_eq in *; auto.
  Qed.
  Lemma validate_share_iff t : validate_share s t = Ok tt <-> ok_share L t.
  Proof.
    unfold validate_share, ok_share. rewrite bind_ok.
    split; intros (e & A & B); exists e;
      rewrite election_of_iff, !seq_ok, !fail_if_tt, !negb_false_iff, trustee_exists_iff, Nat.eqb_eq,
        for_each_iff in *.
    - destruct B as (B & D & F). split; [exact A|]. split; [exact B|]. split; [exact D|].
      intros tr Htr. apply F in Htr. rewrite fail_if_tt, negb_false_iff, (mem_key_in _ byte_eqb_eq) in Htr.
      apply in_map_iff in Htr as ([i sh] & E & Hin). cbn [fst] in E. subst i. exists sh. exact Hin.
    - destruct B as (B & D & F). split; [exact A|]. split; [exact B|]. split; [exact D|].
      intros tr Htr. apply F in Htr as (sh & Htr). rewrite fail_if_tt, negb_false_iff, (mem_key_in _ byte_eqb_eq).
      apply in_map_iff. exists (tr_index tr, sh). auto.
  Qed.

  Lemma range_into {E A} (proj : Tx -> option A) mk e ty r :
    (forall t a, proj t = Some a <-> t = mk a) ->
    (exists txs, @lift E _ (get_multiple s e ty) = Ok txs /\ @map_res E _ _ (into_typed proj) txs = Ok r)
    <-> range_is L e ty mk r.
  Proof.
    intros P. unfold range_is. rewrite (holds_multiple _ _ _ _ H). cbn [lift].
    assert (Q : forall l : list STx, @map_res E _ _ (into_typed proj) l = map_res (fun a => or_panic (proj a) PWrongType) (map s_tx l)).
    { induction l as [|x l IH]; [reflexivity|]. cbn [map_res map]. rewrite IH. reflexivity. }
    split.
    - intros (txs & X & Y). injection X as <-. rewrite Q in Y. apply (map_res_into _ mk) in Y; [|exact P]. exact Y.
    - intros X. eexists. split; [reflexivity|]. rewrite Q. apply (map_res_into _ mk); [exact P|exact X].
  Qed.

  Lemma validate_enckey_iff t : validate_enckey s t = Ok tt <-> ok_enckey L t.
  Proof.
    unfold validate_enckey, ok_enckey. split.
    - intros V. apply bind_ok in V as (e & A & V). apply election_of_iff in A.
      apply seq_ok in V as [B V]. rewrite fail_if_tt, negb_false_iff, pk_eqb_eq in B.
      apply bind_ok in V as (txs & D & V). apply bind_ok in V as (pks & F & V).
      assert (R : range_is L (ek_election t) TKeyGenPublicKey XPublicKey pks).
      { apply (@range_into VError _ as_pubkey XPublicKey _ _ _ as_pubkey_iff). eauto. }
      rewrite !seq_ok, fail_if_tt, negb_false_iff, Nat.eqb_eq, !for_each_iff in V. destruct V as (V1 & V2 & V3).
      exists e, pks. repeat (split; [assumption|]). split.
      + intros tr Htr. apply V2 in Htr. rewrite fail_if_tt, negb_false_iff in Htr.
        apply (existsb_ex _ (fun p => kp_trustee p = tr_index tr /\ kp_public p = tr_public_key tr)) in Htr; [exact Htr|].
        intros p. rewrite andb_true_iff, byte_eqb_eq, pk_eqb_eq. tauto.
      + intros p Hp. apply V3 in Hp. rewrite fail_if_tt, negb_false_iff, egpk_eqb_eq in Hp. exact Hp.
    - intros (e & pks & A & B & R & V1 & V2 & V3). apply election_of_iff in A. rewrite A. cbn [bind].
      rewrite B. rewrite (proj2 (pk_eqb_eq _ _) eq_refl). cbn [negb fail_if bind].
      apply (@range_into VError _ as_pubkey XPublicKey _ _ _ as_pubkey_iff) in R as (txs & D & F).
      rewrite D. cbn [bind]. rewrite F. cbn [bind].
      rewrite !seq_ok, fail_if_tt, negb_false_iff, Nat.eqb_eq, !for_each_iff. split; [exact V1|]. split.
      + intros tr Htr. rewrite fail_if_tt, negb_false_iff.
        apply (existsb_ex _ (fun p => kp_trustee p = tr_index tr /\ kp_public p = tr_public_key tr)); [|apply V2, Htr].
        intros p. rewrite andb_true_iff, byte_eqb_eq, pk_eqb_eq. tauto.
      + intros p Hp. rewrite fail_if_tt, negb_false_iff, egpk_eqb_eq. apply V3, Hp.
  Qed.
End Facts.
