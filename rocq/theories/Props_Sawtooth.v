(** * Props_Sawtooth: C41 and C61 (the Sawtooth transaction processor). *)
From Verif Require Import Base BaseFacts Hex HexFacts Utf8 Cbor Value Ident BuildId IdentFacts Crypto Types Serde SpecSerde SerdeFacts
  ReserFacts Store StoreFacts Prost Validate ValidateFacts Sawtooth Toy Scene.
From Coq Require Import Strings.String Sorting.Sorted.
Open Scope list_scope.

Section Props.
  Context {C : Crypto}.
  Context (pre : bytes).

  Definition sw_types : list TxType := [TElection; TKeyGenCommitment; TKeyGenShare; TKeyGenPublicKey; TVotingEnd].
  Definition sw_entry (p : bytes * bytes) : Prop :=
    exists x, fst p = cb_address pre (s_id x) /\ snd p = stx_bytes x /\ id_type (s_id x) = s_type x
      /\ In (s_type x) sw_types /\ exists q, stx_from_bytes q = Ok x.
  Record swf (s : SState) : Prop := { sw_sorted : bt_sorted s; sw_entries : Forall sw_entry s }.

  Lemma cb_address_inj i j : cb_address pre i = cb_address pre j -> i = j.
  Proof. intros H. apply app_inv_head, id_to_string_inj in H. exact H. Qed.

  Lemma saw_entry s i d : swf s -> bt_get s (cb_address pre i) = Some d ->
    exists x, d = stx_bytes x /\ s_id x = i /\ id_type i = s_type x /\ In (s_type x) sw_types /\ exists q, stx_from_bytes q = Ok x.
  Proof.
    intros W G. apply (bt_get_in _ _ _ (sw_sorted _ W)) in G.
    pose proof (sw_entries _ W) as F. rewrite Forall_forall in F. destruct (F _ G) as (x & A & B & T & I & Q).
    cbn [fst snd] in *. apply cb_address_inj in A. subst d i. exists x. auto.
  Qed.
  Lemma saw_get_some s i d : swf s -> id_type i <> TElection -> bt_get s (cb_address pre i) = Some d ->
    exists x, d = stx_bytes x /\ s_id x = i /\ id_type i = s_type x /\ In (s_type x) sw_types
      /\ saw_get pre s i = Ok (Some (norm_stx x)).
  Proof.
    intros W N G. destruct (saw_entry s i d W G) as (x & A & B & T & I & q & Q). exists x. repeat split; auto.
    unfold saw_get. subst d. rewrite G, (decoded_again _ _ Q); [reflexivity|]. intros E. congruence.
  Qed.
  Lemma norm_type x : s_type (norm_stx x) = s_type x.
  Proof. unfold s_type, norm_stx. cbn [s_tx]. destruct (s_tx x); reflexivity. Qed.
  Lemma saw_get_type s i x : swf s -> saw_get pre s i = Ok (Some x) -> In (s_type x) sw_types /\ id_type i = s_type x.
  Proof.
    intros W G. unfold saw_get in G. destruct (bt_get s (cb_address pre i)) as [d|] eqn:E; [|discriminate].
    destruct (saw_entry s i d W E) as (y & A & _ & T & I & q & Q). destruct (stx_from_bytes d) as [z| |] eqn:D; try discriminate.
    injection G as <-. subst d. rewrite (stored_again _ _ _ Q D), norm_type. auto.
  Qed.

  (** the types that need a range query, directly or through what they refer to, are never accepted *)
  Ltac inv V := repeat match type of V with
    | bind _ _ = Ok _ => let a := fresh "a" in let A := fresh "A" in apply bind_ok in V as (a & A & V)
    end.
  Lemma no_typed {A} (proj : Tx -> option A) t s i p : swf s -> ~ In t sw_types -> id_type i = t ->
    get_typed proj t (saw_store pre s) i <> Ok p.
  Proof.
    intros W N T G. unfold get_typed in G. inv G.
    match goal with H : lift (st_get _ _) = Ok ?o |- _ => rename H into L; destruct o as [x|]; [|discriminate] end.
    cbn [saw_store st_get] in L. destruct (saw_get pre s i) as [[y|]|e|] eqn:E; [|discriminate|destruct e|discriminate].
    destruct (saw_get_type s i y W E) as [I X]. congruence.
  Qed.
  Lemma lift_get {E} s i o : @lift E _ (st_get (saw_store pre s) i) = Ok o -> saw_get pre s i = @Ok Empty_set _ o.
  Proof. cbn [saw_store st_get]. destruct (saw_get pre s i) as [|e|]; [|destruct e|]; cbn [lift]; congruence. Qed.

  Lemma no_upstream s up i c mc r : swf s -> encrypted_vote (saw_store pre s) up i c mc <> Ok r.
  Proof.
    intros W V. unfold encrypted_vote in V. destruct (id_type up) eqn:T; try discriminate.
    - inv V. match goal with H : q (get_vote _ _) = Ok ?p |- _ => rename H into G end. unfold q in G.
      destruct (get_vote (saw_store pre s) up) eqn:E; try discriminate.
      revert E. apply no_typed; [exact W|vm_compute; intuition discriminate|exact T].
    - inv V. match goal with H : q (get_mix _ _) = Ok ?p |- _ => rename H into G end. unfold q in G.
      destruct (get_mix (saw_store pre s) up) eqn:E; try discriminate.
      revert E. apply no_typed; [exact W|vm_compute; intuition discriminate|exact T].
  Qed.
  Lemma accepted_types dbg s x : swf s -> validate dbg (saw_store pre s) x = Ok tt ->
    In (s_type x) sw_types /\ id_type (s_id x) = s_type x.
  Proof.
    intros W V. apply validate_ok in V as (T & _ & V). split; [|exact T]. unfold s_type. clear T.
    destruct (s_tx x) as [t|t|t|t|t|t|t|t|t|t]; cbn [tx_type sw_types In]; try tauto; exfalso; cbn [validate_tx] in V.
    - unfold validate_enckey in V. inv V.
      match goal with H : lift (get_multiple _ _ _) = _ |- _ => discriminate H end.
    - unfold validate_vote in V. inv V.
      match goal with H : lift (st_range _ _ _) = _ |- _ => discriminate H end.
    - unfold validate_mix in V. inv V.
      match goal with H : mix_input _ _ _ = _ |- _ => rename H into M end. unfold mix_input in M.
      destruct (mx_prev t) as [p|].
      + unfold mix_input_prev in M. inv M.
        match goal with H : lift (st_get _ p) = Ok ?o, K : ok_or ?o _ = Ok ?y |- _ =>
          apply lift_get in H; destruct o as [z|]; [|discriminate K]; injection K as <-; destruct (saw_get_type s p z W H) as [I _] end.
        match goal with H : into_typed as_mix _ = Ok _ |- _ => unfold into_typed, as_mix in H; unfold s_type in I;
          destruct (s_tx z); try discriminate H end.
        cbn in I. intuition discriminate.
      + unfold mix_input_first in M. inv M.
        match goal with H : lift (st_range _ _ _) = _ |- _ => discriminate H end.
    - unfold validate_partial in V. inv V.
      match goal with H : encrypted_vote _ _ _ _ _ = _ |- _ => revert H; apply no_upstream, W end.
    - unfold validate_decryption in V. inv V.
      match goal with H : encrypted_vote _ _ _ _ _ = _ |- _ => revert H; apply no_upstream, W end.
  Qed.

  Lemma apply_ok dbg s h p s' : apply pre dbg s h p = Ok s' <->
    h = true /\ exists x, stx_from_bytes p = Ok x
      /\ (s_type x = TElection \/ saw_get pre s (s_id x) = Ok None)
      /\ validate dbg (saw_store pre s) x = Ok tt /\ s' = bt_insert s (cb_address pre (s_id x)) (stx_bytes x).
  Proof.
    unfold apply, saw_validate. split.
    - intros H. inv H.
      match goal with H : fail_if (negb h) _ = _ |- _ => destruct h; [|discriminate H] end. split; [reflexivity|].
      match goal with H : map_err _ (stx_from_bytes p) = Ok ?y |- _ => exists y;
         destruct (stx_from_bytes p); try discriminate H; injection H as <- end.
      injection H as <-. split; [reflexivity|].
      match goal with H : bind _ _ = Ok _ |- _ => rename H into V end. inv V.
      match goal with H : map_err Invalid ?m = Ok ?u |- _ => destruct m as [[]| |] eqn:VV; try discriminate H end.
      split; [|auto]. unfold s_type.
      match goal with H : match s_tx ?y with _ => _ end = Ok _ |- _ => rename H into G end.
      match type of G with match s_tx ?y with _ => _ end = _ => destruct (s_tx y) end; [left; reflexivity|right..]; inv G;
      match goal with H : lift _ = Ok ?o |- _ => apply (lift_get s) in H; destruct o; [discriminate|exact H] end.
    - intros (-> & x & D & G & V & ->). rewrite D. cbn [fail_if negb bind map_err].
      assert (E : (match s_tx x with XElection _ => Ok tt | _ => let! o := lift (saw_get pre s (s_id x)) in
          fail_if (match o with Some _ => true | None => false end) AlreadyExists end) = Ok tt).
      { destruct G as [G|G].
        - unfold s_type in G. destruct (s_tx x); try discriminate G. reflexivity.
        - rewrite G. destruct (s_tx x); reflexivity. }
      rewrite E. cbn [bind]. rewrite V. reflexivity.
  Qed.
  Lemma swf_empty : swf [].
  Proof. split; [constructor|constructor]. Qed.
  Lemma swf_step dbg s r : swf s -> swf (saw_step pre dbg s r).
  Proof.
    intros W. unfold saw_step. destruct (apply pre dbg s (fst r) (snd r)) as [s'| |] eqn:A; auto.
    apply apply_ok in A as (_ & x & D & _ & V & ->). destruct (accepted_types dbg s x W V) as [I T].
    split; [apply bt_insert_sorted, W|]. apply Forall_forall. intros p Hp. apply bt_insert_in in Hp as [->|Hp].
    - exists x. cbn [fst snd]. eauto 8.
    - pose proof (sw_entries _ W) as F. rewrite Forall_forall in F. auto.
  Qed.
  Lemma swf_run dbg l : forall s, swf s -> swf (saw_run pre dbg s l).
  Proof. induction l as [|r l IH]; intros s W; [exact W|]. apply IH, swf_step, W. Qed.

  (** ** C41 *)
  Lemma step_keeps dbg s r i d : swf s -> id_type i <> TElection -> bt_get s (cb_address pre i) = Some d ->
    bt_get (saw_step pre dbg s r) (cb_address pre i) = Some d.
  Proof.
    intros W N G. unfold saw_step. destruct (apply pre dbg s (fst r) (snd r)) as [s'| |] eqn:A; auto.
    apply apply_ok in A as (_ & x & D & U & V & ->). destruct (accepted_types dbg s x W V) as [_ T].
    rewrite bt_get_insert. destruct (bytes_eqb (cb_address pre i) (cb_address pre (s_id x))) eqn:E; [exfalso|exact G].
    apply bytes_eqb_eq, cb_address_inj in E. destruct U as [U|U]; [congruence|].
    destruct (saw_get_some s i d W N G) as (y & _ & _ & _ & _ & Y). rewrite <- E, Y in U. discriminate.
  Qed.
  Theorem C41_immutable_except_elections_partial :
    forall dbg l1 l2 i d, id_type i <> TElection ->
    bt_get (saw_run pre dbg [] l1) (cb_address pre i) = Some d ->
    bt_get (saw_run pre dbg [] (l1 ++ l2)) (cb_address pre i) = Some d.
  Proof.
    intros dbg l1 l2 i d N G. unfold saw_run in *. rewrite fold_left_app.
    change (fold_left (saw_step pre dbg) l1 []) with (saw_run pre dbg [] l1) in *.
    pose proof (swf_run dbg l1 [] swf_empty) as W. revert W G. generalize (saw_run pre dbg [] l1). clear l1.
    induction l2 as [|r l IH]; intros s W G; [exact G|]. cbn [fold_left]. apply IH; [apply swf_step, W|].
    apply step_keeps; auto.
  Qed.
  (** an entry is never removed and keeps its type; unless it is an election it can be read back *)
  Theorem C41_entries_never_removed_partial :
    forall dbg l1 l2 i d, bt_get (saw_run pre dbg [] l1) (cb_address pre i) = Some d ->
    exists x, bt_get (saw_run pre dbg [] (l1 ++ l2)) (cb_address pre i) = Some (stx_bytes x)
      /\ s_id x = i /\ s_type x = id_type i
      /\ (id_type i <> TElection -> exists y, stx_from_bytes (stx_bytes x) = Ok y)
      /\ forall y, stx_from_bytes (stx_bytes x) = Ok y -> s_id y = i /\ content_agree (s_tx x) (s_tx y).
  Proof.
    intros dbg l1 l2 i d G.
    assert (K : exists d', bt_get (saw_run pre dbg [] (l1 ++ l2)) (cb_address pre i) = Some d').
    { unfold saw_run in *. rewrite fold_left_app. revert G. generalize (fold_left (saw_step pre dbg) l1 []). revert d.
      induction l2 as [|r l IH]; intros d s G; [eauto|]. cbn [fold_left].
      assert (exists d', bt_get (saw_step pre dbg s r) (cb_address pre i) = Some d') as (d' & E); [|eapply IH; eauto].
      unfold saw_step. destruct (apply pre dbg s (fst r) (snd r)) as [s'| |] eqn:A; eauto.
      apply apply_ok in A as (_ & x & _ & _ & _ & ->). rewrite bt_get_insert.
      destruct (bytes_eqb (cb_address pre i) (cb_address pre (s_id x))); eauto. }
    destruct K as (d' & K). pose proof (swf_run dbg (l1 ++ l2) [] swf_empty) as W.
    pose proof K as K'. apply (bt_get_in _ _ _ (sw_sorted _ W)) in K'.
    pose proof (sw_entries _ W) as F. rewrite Forall_forall in F. destruct (F _ K') as (x & A & B & T & _ & q & Q).
    cbn [fst snd] in *. apply cb_address_inj in A. subst. exists x. split; [exact K|]. split; [reflexivity|]. split; [auto|]. split.
    - intros N. eexists. apply (decoded_again _ _ Q). intros X. congruence.
    - intros y Y. rewrite (stored_again _ _ _ Q Y). split; [|apply norm_content]. unfold s_id, norm_stx. cbn [s_tx]. destruct (s_tx x); reflexivity.
  Qed.

  (** ** C61: five types are never accepted, whatever was sent before *)
  Theorem C61_only_five_types_partial :
    forall dbg l h p s' x, stx_from_bytes p = Ok x -> apply pre dbg (saw_run pre dbg [] l) h p = Ok s' ->
    In (s_type x) sw_types.
  Proof.
    intros dbg l h p s' x D A. apply apply_ok in A as (_ & y & D' & _ & V & _).
    assert (y = x) as -> by congruence. eapply accepted_types; [|exact V]. apply swf_run, swf_empty.
  Qed.
  (** for two of them this holds in any state at all, because they query a range *)
  Theorem C61_votes_never_accepted :
    forall dbg s h p s' x, stx_from_bytes p = Ok x -> In (s_type x) [TEncryptionKey; TVote] ->
    apply pre dbg s h p <> Ok s'.
  Proof.
    intros dbg s h p s' x D T A. apply apply_ok in A as (_ & y & D' & _ & V & _).
    assert (y = x) as -> by congruence. apply validate_ok in V as (_ & _ & V). unfold s_type in T.
    destruct (s_tx x) as [t|t|t|t|t|t|t|t|t|t]; cbn in T; try (exfalso; intuition discriminate); cbn [validate_tx] in V.
    - unfold validate_enckey in V. inv V.
      match goal with H : lift (get_multiple _ _ _) = _ |- _ => discriminate H end.
    - unfold validate_vote in V. inv V.
      match goal with H : lift (st_range _ _ _) = _ |- _ => discriminate H end.
  Qed.
  Theorem C61_every_type_refuted :
    exists t, forall dbg s h p s' x, stx_from_bytes p = Ok x -> s_type x = t -> apply pre dbg s h p <> Ok s'.
  Proof.
    exists TVote. intros dbg s h p s' x D T. apply (C61_votes_never_accepted dbg s h p s' x D). rewrite T.
    right. left. reflexivity.
  Qed.
End Props.

(** ** Examples *)
#[local] Existing Instance Toy.
Definition PRE : bytes := [x61; x62; x63].
Definition sends (l : list STx) : list (bool * bytes) := map (fun x => (true, stx_bytes x)) l.
Definition saw (l : list STx) : SState := saw_run PRE true [] (sends l).
Definition has (s : SState) (x : STx) : bool :=
  match bt_get s (cb_address PRE (s_id x)) with Some d => bytes_eqb d (stx_bytes x) | None => false end.
Definition el1 : STx := sgn x01 (XElection (election None)).
(** somebody else's election with the same identifier, no trustees and no authenticators *)
Definition el2 : STx := sgn x44 (XElection (mk_election EID (pk_of x44) [] x00 [] x00 None [] [] no_props)).

(** the five types are accepted *)
Example C61_five_types_accepted :
  let s := saw (setup None ++ [votingend]) in
  forallb (fun t => existsb (fun x => has s x && tt_eqb (s_type x) t) (setup None ++ [votingend])) sw_types = true.
Proof. vm_compute. reflexivity. Qed.
(** a vote makes the processor panic *)
Example C61_vote_panics :
  apply PRE true (saw (setup None)) true (stx_bytes (vote x20 (lit "yes"))) = Panic PTodo.
Proof. vm_compute. reflexivity. Qed.
(** C41: a commitment cannot be sent twice *)
Example C41_example :
  match nth_error (setup None) 1 with
  | Some x => has (saw (setup None)) x = true /\ apply PRE true (saw (setup None)) true (stx_bytes x) = Err AlreadyExists
              /\ id_type (s_id x) <> TElection
  | None => False
  end.
Proof. vm_compute. repeat split. discriminate. Qed.
(** C41 refuted for elections: anybody replaces a running election *)
Theorem C41_election_replaced_refuted :
  exists i d d', bt_get (saw [el1]) (cb_address PRE i) = Some d
    /\ bt_get (saw [el1; el2]) (cb_address PRE i) = Some d' /\ d <> d'.
Proof.
  exists EID, (stx_bytes el1), (stx_bytes el2).
  split; [vm_compute; reflexivity|]. split; [vm_compute; reflexivity|]. intros K.
  assert (bytes_eqb (stx_bytes el1) (stx_bytes el2) = false) as X by (vm_compute; reflexivity).
  rewrite K, bytes_eqb_refl in X. discriminate.
Qed.

(** C41 refuted: an accepted election, nested as deep as the reader allows, that the processor cannot
    read back: the integer in its properties is stored as a map *)
Fixpoint plain_num (v : cval) : cval :=
  match v with
  | CArr l => CArr (map plain_num l)
  | CMap l => match l with
              | [(CText k, CText s)] => match (if rs_eqb k token then as_int (sv s) else None) with Some n => n | None => v end
              | _ => CMap (map (fun p => match p with (a, b) => (a, plain_num b) end) l)
              end
  | _ => v
  end.
Fixpoint nested (n : nat) : jval := match n with O => JNum (lit "7") | S n' => JArr [nested n'] end.
Definition nested_props : props := @mk_sub _ (nodup_keys rs_eqb) [(b1, @mk_sub _ jok (nested 124) eq_refl); (lit "x", @mk_sub _ jok JNull eq_refl)] eq_refl.
Definition el3 : STx := sgn x01 (XElection
  (mk_election EID (pk_of x01) [T x0a x01; T x0b x02] x02 [auth1] x01 None [ballot1] [contest0] nested_props)).
Theorem C41_election_unreadable_refuted :
  exists p x s, stx_from_bytes p = Ok x /\ apply PRE true [] true p = Ok s
    /\ bt_get s (cb_address PRE (s_id x)) = Some (stx_bytes x) /\ saw_get PRE s (s_id x) = Ok None.
Proof.
  exists (cenc (plain_num (ser_stx el3))), el3, [(cb_address PRE (s_id el3), stx_bytes el3)].
  vm_compute. auto.
Qed.

Print Assumptions C41_election_unreadable_refuted.
Print Assumptions C41_immutable_except_elections_partial.
Print Assumptions C41_entries_never_removed_partial.
Print Assumptions C41_election_replaced_refuted.
Print Assumptions C61_only_five_types_partial.
Print Assumptions C61_votes_never_accepted.
Print Assumptions C61_every_type_refuted.
