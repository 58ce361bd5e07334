(** * Props_Service: C47-C48 (the commit hook of a node). *)
From Coq Require Strings.String.
From Verif Require Import Base BaseFacts Hex HexFacts Utf8 Cbor Ident BuildId IdentFacts Crypto Types Serde Store SpecStore StoreFacts Prost
  Validate ValidateFacts SpecValid ValidFacts ValidFacts2 ValidFacts3 SpecHist HistFacts Exonum SpecLedger LedgerFacts
  Trustee Tasks SpecTasks TasksFacts Service SpecService ServiceFacts Toy Scene ToyT Props_Tasks.
Import String.StringSyntax.
Open Scope list_scope.

Section Props.
  Context {C : Crypto} {TC : TCrypto}.

  (** ** C47: the hook does not panic.  Full statement: without the hypotheses on addressing and readiness *)
  Theorem C47_no_panic_partial :
    forall dbg sk r bs, bs <> [] -> (forall e, In e (envelopes bs) -> honest e /\ addressed e) ->
    let l := accepted dbg [] (envelopes bs) in
    (forall n e x, In (Some e) (last (removelast bs) []) -> In x l -> sv (en_id e) = id_to_string (s_id x) ->
       ready dbg sk (r n) (stored l) x) ->
    exists sent, after_commit dbg sk r (node_of dbg bs) = Ok sent.
  Proof.
    intros dbg sk r bs N Hb l R. rewrite hook_block by exact N.
    assert (He : Forall honest (envelopes bs)) by (apply Forall_forall; intros e I; apply Hb, I).
    destruct (honest_run0 dbg _ He) as (Hh & HL & D & W). fold l in Hh, D.
    assert (E : flat_map payloads bs = envelopes bs) by reflexivity. unfold Block in *. rewrite E.
    set (Le := run dbg [] (envelopes bs)) in *. pose proof (honest_holds _ W HL) as HH. rewrite D in HH.
    assert (P : nth (length bs - 1) ([] :: bs) [] = last (removelast bs) []).
    { destruct (rev bs) as [|b bs'] eqn:Er; [apply (f_equal (@rev _)) in Er; rewrite rev_involutive in Er; cbn in Er; contradiction|].
      apply (f_equal (@rev _)) in Er. rewrite rev_involutive in Er. cbn [rev] in Er. rewrite Er, prev_block, removelast_last.
      destruct (rev bs'); reflexivity. }
    rewrite P. apply follow_block_total. intros n [e|] I; [|exists []; reflexivity].
    assert (Ie : In e (envelopes bs)).
    { clear -I. unfold envelopes. apply in_flat_map. exists (last (removelast bs) []). split.
      - destruct (rev bs) as [|b bs'] eqn:Er; apply (f_equal (@rev _)) in Er; rewrite rev_involutive in Er; rewrite Er in *; [destruct I|].
        cbn [rev] in *. rewrite removelast_last in *. apply in_or_app. left.
        destruct (rev bs') as [|c m]; [destruct I|]. rewrite (app_removelast_last [] (l := c :: m)) by discriminate.
        rewrite last_last. apply in_or_app. right. left. reflexivity.
      - apply in_flat_map. exists (Some e). split; [exact I|left; reflexivity]. }
    destruct (Hb e Ie) as [_ (i & Ei)]. unfold follow_up. rewrite Ei, id_from_to_string.
    rewrite (ex_get_entry _ _ W HL), D. cbn [bind]. destruct (entry (stored l) i) as [x|] eqn:En; [|eauto].
    apply (hist_entry dbg _ _ _ Hh) in En as [Ix Ex].
    destruct (follow_total dbg sk (r n) l (ex_store Le) Hh HH x Ix) as (new & G).
    { apply (R n e x I Ix). congruence. }
    rewrite G. cbn [unwrapped bind]. destruct (unsent_total Le new W) as (sent & S & _). eauto.
  Qed.
  (** a node that is no trustee of a recorded election never panics on such chains *)
  Theorem C47_observer_partial :
    forall dbg sk r bs, bs <> [] -> (forall e, In e (envelopes bs) -> honest e /\ addressed e) ->
    (forall i el, at_id (accepted dbg [] (envelopes bs)) i (XElection el) -> ~ is_trustee el (ed_public sk)) ->
    exists sent, after_commit dbg sk r (node_of dbg bs) = Ok sent.
  Proof.
    intros dbg sk r bs N Hb T. apply C47_no_panic_partial; auto. intros n e x _ _ _ e' el t _ (A & t0 & F & _). exfalso.
    destruct (honest_run0 dbg (envelopes bs)) as (Hh & _).
    { apply Forall_forall. intros d I. apply Hb, I. }
    apply (TasksFacts3.hist_at_id dbg _ _ _ Hh) in A. apply (T _ _ A). apply first_in in F as [F1 F2]. exists t0. auto.
  Qed.

  (** ** C48 *)
  (** every item of every block but the last is followed up once, in order, against the ledger after the next block *)
  Theorem C48_in_order :
    forall dbg sk r bs nd sent, run_node dbg sk r genesis bs = (nd, Ok sent) ->
    nd_ledger nd = ledger_after dbg bs
    /\ map snd (due dbg bs) = concat (removelast bs)
    /\ exists outs, Forall2 (fun w out => follow_up dbg sk r (fst (fst w)) (snd (fst w)) (snd w) = Ok out) (due dbg bs) outs
         /\ sent = concat outs.
  Proof.
    intros dbg sk r bs nd sent R. destruct (run_node_spec dbg sk r bs nd sent R) as (-> & outs & F & E).
    split; [apply (proj2 (node_chain dbg bs))|]. split; [apply (due_items dbg r)|]. exists outs. split; [exact F|exact E].
  Qed.
  (** sent are exactly the follow-ups, of recorded transactions of the previous block, whose identifier is not taken *)
  Theorem C48_sent_exactly :
    forall dbg sk r bs sent, bs <> [] -> after_commit dbg sk r (node_of dbg bs) = Ok sent ->
    let L := ledger_after dbg bs in
    forall e, In e sent <-> exists n e0 i x l y,
      nth_error (last (removelast bs) []) n = Some (Some e0) /\ id_from_str (sv (en_id e0)) = Ok i
      /\ ex_get L i = Ok (Some x) /\ generate_transactions dbg sk (r n) (ex_store L) x = Ok l /\ In y l
      /\ e = into_env y /\ forall e', ~ recorded L (id_to_string (s_id y)) e'.
  Proof.
    intros dbg sk r bs sent. apply sent_exactly.
  Qed.

  (** one envelope, from anybody and without any valid content, addressed by 32 hex digits: every node panics *)
  Definition digits32 : rstring := lit "00000000000000000000000000000000".
  Definition crash : Env := mk_env (arr_rep x00 32) digits32 [].
  Theorem C47_addressing_refuted : exists bs, forall dbg sk r, after_commit dbg sk r (node_of dbg bs) = Panic PUnwrap.
  Proof. exists [[Some crash]; []]. intros dbg sk r. reflexivity. Qed.
End Props.

#[local] Existing Instance Toy.
#[local] Existing Instance ToyT.

Definition chain (l : list STx) : list (list (option Env)) := map (fun x => [Some (into_env x)]) l ++ [[]].
Definition hook (b : byte) (l : list STx) : res Empty_set (list Env) :=
  @after_commit Toy ToyT true (key_of b) (fun _ => rnd0) (node_of true (chain l)).
Definition all_recorded (l : list STx) : bool := Nat.eqb (length (nd_ledger (node_of true (chain l)))) (length l).

Definition panics (m : res Empty_set (list Env)) : bool := match m with Panic _ => true | _ => false end.
Lemma panics_ok m : panics m = true -> exists p, m = Panic p.
Proof. destruct m as [?|[]|p]; try discriminate. eauto. Qed.
(** the accepted transactions of a chain can crash the node with key [b] *)
Definition crashes (b : byte) (l : list STx) : Prop :=
  length (ledger_after true (chain l)) = length l
  /\ exists p, @after_commit Toy ToyT true (key_of b) (fun _ => rnd0) (node_of true (chain l)) = Panic p.
Lemma crashes_ok b l : all_recorded l = true -> panics (hook b l) = true -> crashes b l.
Proof.
  intros A B. split; [|apply panics_ok, B]. apply Nat.eqb_eq in A. rewrite <- A. f_equal. symmetry. apply (proj2 (node_chain true (chain l))).
Qed.

(** a trustee publishes a share of one byte: the other trustees' nodes panic *)
Definition bad_share : list STx := firstn 3 plain ++ [share x0a x01; at_pos plain 4].
Theorem C47_short_share_refuted : exists l, crashes x0b l.
Proof. exists bad_share. apply crashes_ok; vm_compute; reflexivity. Qed.
(** somebody outside the election publishes a share transaction of another election under an identifier of this one *)
Definition EID2 : Identifier := election_build_id (arr_rep x22 15).
Definition election2 : ElectionTx := mk_election EID2 (pk_of x30) [T x30 x01] x01 [] x00 None [] [] no_props.
Definition foreign_share : STx :=
  sgn x30 (XShare (mk_share (id_new EID TKeyGenShare (Some (arr_rep x77 16))) EID2 x01 (pk_of x30)
    (@mk_sub _ (nodup_keys Byte.eqb) [(x01, [xaa])] eq_refl))).
Definition foreign_l : list STx := firstn 3 plain ++ [sgn x30 (XElection election2); foreign_share; at_pos plain 3].
Theorem C47_foreign_share_refuted : exists l, crashes x0b l.
Proof. exists foreign_l. apply crashes_ok; vm_compute; reflexivity. Qed.
(** a voter encrypts a byte string that is no selection: the trustees' nodes panic when it is decrypted *)
Definition garbage : STx :=
  sgn x20 (XVote (mk_vote (vote_build_id EID (key_of x20)) EID b1 [mk_encvote (n32 0) [ct_of [xff] 1]] (pk_of x20) [authn x20])).
Definition spoilt : list STx := auto (election None) [garbage].
Theorem C47_spoilt_vote_refuted : exists l, crashes x0b l.
Proof. exists spoilt. apply crashes_ok; vm_compute; reflexivity. Qed.
(** voting ended before the encryption key of a mixnet election exists: the first trustee's node panics *)
Definition early_end : list STx := [sgn x01 (XElection (election (Some mixcfg))); votingend].
Theorem C47_early_end_refuted : exists l, crashes x0a l.
Proof. exists early_end. apply crashes_ok; vm_compute; reflexivity. Qed.

(** the hypotheses of [C47_no_panic_partial]: a trustee's node after the second share *)
Definition honest_all (l : list STx) : bool :=
  forallb (fun e => match stx_from_bytes (en_data e) with
                    | Ok x => bytes_eqb (sv (en_id e)) (id_to_string (s_id x)) | _ => true end) (envelopes (chain l)).
Lemma honest_all_ok l : honest_all l = true -> forall e, In e (envelopes (chain l)) -> honest e /\ addressed e.
Proof.
  intros E e I. split.
  - unfold honest_all in E. rewrite forallb_forall in E. specialize (E e I). intros x K. unfold carries in K. rewrite K in E.
    apply bytes_eqb_eq, E.
  - unfold envelopes, chain in I. rewrite flat_map_app in I. cbn [flat_map] in I. rewrite app_nil_r in I.
    apply in_flat_map in I as (b & B & I). apply in_map_iff in B as (x & <- & _). cbn in I. destruct I as [<-|[]].
    exists (s_id x). reflexivity.
Qed.
Definition keyed : list STx := firstn 5 plain.
Definition keyed_l : list STx := accepted true [] (envelopes (chain keyed)).
Definition can_open (b : byte) (s : Store) (e : Identifier) : bool :=
  match t_election s e with
  | Ok el =>
      match trustee_from_election el (pk_of b), t_multiple as_share s e TKeyGenShare, t_multiple as_commitment s e TKeyGenCommitment with
      | Some t, Ok shs, Ok cs =>
          match @shares_to Toy TaskError t shs with
          | Ok mine => is_ok (@party Toy ToyT t (key_of b) (x_keys_of cs) (commitments_of cs) mine e)
          | _ => false
          end
      | _, _, _ => false
      end
  | _ => false
  end.
Lemma shares_to_inv {E} t shs : forall mine, @shares_to Toy E t shs = Ok mine ->
  Forall2 (fun sh m => fst m = ks_trustee sh /\ assoc Byte.eqb (tr_index t) (sv (ks_shares sh)) = Some (snd m)) shs mine.
Proof.
  unfold shares_to. induction shs as [|sh shs IH]; intros mine M; cbn [map_res] in M.
  - injection M as <-. constructor.
  - apply bind_ok in M as (m & A & M). apply bind_ok in M as (ms & B & M). injection M as <-.
    apply bind_ok in A as (b & A & D). apply or_panic_ok in A. injection D as <-. constructor; [auto|apply IH, B].
Qed.
Lemma can_open_ok b s L e el t : holds s L -> can_open b s e = true -> serves L e (pk_of b) el t ->
  @party_ready Toy ToyT (key_of b) L e t.
Proof.
  intros H K (A & S). unfold can_open in K. apply (t_election_iff s L H) in A. rewrite A in K.
  apply full_first in S. rewrite S in K. intros shs cs R1 R2.
  apply (t_multiple_iff s L H _ _ _ _ _ as_share_iff) in R1. apply (t_multiple_iff s L H _ _ _ _ _ as_commitment_iff) in R2.
  rewrite R1, R2 in K. destruct (shares_to t shs) as [mine| |] eqn:M; try discriminate K. apply shares_to_inv in M.
  match type of K with is_ok ?m = true => destruct m as [p| |] eqn:P; try discriminate K end. exists mine, p. split; [exact M|exact P].
Qed.
Lemma share_ready b (l : list STx) (bl : list (option Env)) (slot : bytes) :
  forallb (fun x => negb (bytes_eqb slot (id_to_string (s_id x)))
             || (tt_eqb (s_type x) TKeyGenShare && match named_election (s_tx x) with Some e => id_eqb e EID | None => false end)) l = true ->
  match bl with [Some e] => bytes_eqb (sv (en_id e)) slot | _ => false end = true ->
  can_open b (ms_store (ms_from l)) EID = true ->
  forall (n : nat) e x, In (Some e) bl -> In x l -> sv (en_id e) = id_to_string (s_id x) ->
    @ready Toy ToyT true (key_of b) ((fun _ : nat => rnd0) n) (stored l) x.
Proof.
  generalize EID as e0. intros e0 K B Op n e x I Ix E e' el t N Se.
  assert (T : s_type x = TKeyGenShare /\ named_election (s_tx x) = Some e0).
  { rewrite forallb_forall in K. specialize (K x Ix).
    assert (Ee : sv (en_id e) = slot).
    { destruct bl as [|[e1|] [|? ?]]; try discriminate B. destruct I as [I|[]]. injection I as <-. apply bytes_eqb_eq, B. }
    rewrite <- Ee, E, bytes_eqb_refl in K. cbn [negb orb] in K. apply andb_prop in K as [K1 K2]. apply tt_eqb_eq in K1. split; [exact K1|].
    destruct (named_election (s_tx x)) as [e1|]; [|discriminate K2]. apply id_eqb_eq in K2. congruence. }
  destruct T as [T1 T2]. rewrite T2 in N. injection N as <-. unfold s_type in T1. destruct (s_tx x); try discriminate T1.
  apply (can_open_ok b (ms_store (ms_from l)) (stored l) e0 el t); [apply stored_holds|exact Op|exact Se].
Qed.
Example C47_case : (forall e, In e (envelopes (chain keyed)) -> honest e /\ addressed e)
  /\ (forall n e x, In (Some e) (last (removelast (chain keyed)) []) -> In x keyed_l -> sv (en_id e) = id_to_string (s_id x) ->
       @ready Toy ToyT true (key_of x0b) ((fun _ : nat => rnd0) n) (stored keyed_l) x)
  /\ existsb (fun x => tt_eqb (s_type x) TKeyGenShare) keyed_l = true
  /\ match hook x0b keyed with Ok sent => length sent | _ => 0 end = 1.
Proof.
  split; [apply honest_all_ok; vm_compute; reflexivity|]. split.
  - apply (share_ready x0b keyed_l _ (id_to_string (s_id (at_pos plain 4)))); vm_compute; reflexivity.
  - split; vm_compute; reflexivity.
Qed.
Definition observed (b : byte) (l : list STx) : bool :=
  forallb (fun x => match s_tx x with XElection el => negb (existsb (fun t => pk_eqb (tr_public_key t) (pk_of b)) (el_trustees el)) | _ => true end) l.
Lemma observed_ok b (l : list STx) : observed b l = true ->
  forall i el, at_id l i (XElection el) -> ~ is_trustee el (@ed_public Toy (key_of b)).
Proof.
  intros O i el (x & I & _ & E) (t & It & Et). unfold observed in O. rewrite forallb_forall in O. specialize (O x I). rewrite E in O.
  apply negb_true_iff in O. rewrite <- Bool.not_true_iff_false in O. apply O. apply existsb_exists. exists t. split; [exact It|].
  apply pk_eqb_eq, Et.
Qed.
Example C47_observer_case : (forall e, In e (envelopes (chain plain)) -> honest e /\ addressed e)
  /\ (forall i el, at_id (accepted true [] (envelopes (chain plain))) i (XElection el) -> ~ is_trustee el (@ed_public Toy (key_of x01)))
  /\ length (accepted true [] (envelopes (chain plain))) = 17.
Proof.
  split; [apply honest_all_ok; vm_compute; reflexivity|]. split; [apply observed_ok|]; vm_compute; reflexivity.
Qed.

(** "exactly once": an identifier sent twice.  First, two commitments in one block: the share is sent for each. *)
Definition same_block : list (list (option Env)) :=
  [[Some (into_env (at_pos plain 0))]; [Some (into_env (at_pos plain 1)); Some (into_env (at_pos plain 2))]; []].
(** second, an envelope submitted again, by another author: it is refused, yet followed up again *)
Definition again (x : STx) : Env := mk_env (arr_rep x99 32) (en_id (into_env x)) (en_data (into_env x)).
Definition resent : list (list (option Env)) := [[Some (into_env (at_pos plain 0))]; [Some (again (at_pos plain 0))]; []].
Definition sent_ids (m : Node * res Empty_set (list Env)) : option (list bytes) :=
  match m with (_, Ok sent) => Some (map (fun e => sv (en_id e)) sent) | _ => None end.
Definition repeats (o : option (list bytes)) : bool :=
  match o with Some l => existsb (fun k => Nat.leb 2 (length (filter (bytes_eqb k) l))) l | None => false end.
Lemma repeats_ok m : repeats (sent_ids m) = true -> exists nd sent, m = (nd, Ok sent) /\ ~ NoDup (map (fun e => sv (en_id e)) sent).
Proof.
  unfold sent_ids. destruct m as [nd [sent|[]|]]; try discriminate. cbn [repeats]. intros E. exists nd, sent. split; [reflexivity|].
  intros N. apply existsb_exists in E as (k & _ & E). apply Nat.leb_le in E.
  assert (K : forall l : list bytes, NoDup l -> length (filter (bytes_eqb k) l) <= 1).
  { clear. induction 1 as [|a l Na N IH]; [cbn; lia|]. cbn [filter]. destruct (bytes_eqb k a) eqn:B; [|exact IH].
    apply bytes_eqb_eq in B. subst a. rewrite (filter_nothing (bytes_eqb k) l); [cbn; lia|].
    intros y Iy. destruct (bytes_eqb k y) eqn:By; [|reflexivity]. apply bytes_eqb_eq in By. subst y. contradiction. }
  specialize (K _ N). lia.
Qed.
Theorem C48_once_refuted : exists bs nd sent, @run_node Toy ToyT true (key_of x0a) (fun _ => rnd0) genesis bs = (nd, Ok sent)
  /\ NoDup (map (fun e => sv (en_id e)) (envelopes bs)) /\ ~ NoDup (map (fun e => sv (en_id e)) sent).
Proof.
  destruct (repeats_ok (@run_node Toy ToyT true (key_of x0a) (fun _ => rnd0) genesis same_block)) as (nd & sent & A & B); [vm_compute; reflexivity|].
  exists same_block, nd, sent. split; [exact A|]. split; [|exact B].
  assert (K : forall l : list bytes, forallb (fun k => Nat.leb (length (filter (bytes_eqb k) l)) 1) l = true -> NoDup l).
  { clear. intros l. induction l as [|a l IH]; intros H; [constructor|]. cbn [forallb] in H. apply andb_prop in H as [H1 H2].
    cbn [filter] in H1. rewrite bytes_eqb_refl in H1. cbn [length] in H1. apply Nat.leb_le in H1. constructor.
    - intros I. assert (X : In a (filter (bytes_eqb a) l)) by (apply filter_In; split; [exact I|apply bytes_eqb_refl]).
      destruct (filter (bytes_eqb a) l); [destruct X|cbn in H1; lia].
    - apply IH. apply forallb_forall. intros k I. rewrite forallb_forall in H2. specialize (H2 k I). cbn [filter] in H2.
      destruct (bytes_eqb k a); [|exact H2]. cbn [length] in H2. apply Nat.leb_le in H2. apply Nat.leb_le. lia. }
  apply K. vm_compute. reflexivity.
Qed.
Theorem C48_refused_again_refuted : exists bs nd sent, @run_node Toy ToyT true (key_of x0a) (fun _ => rnd0) genesis bs = (nd, Ok sent)
  /\ length (nd_ledger nd) = 1 /\ ~ NoDup (map (fun e => sv (en_id e)) sent).
Proof.
  assert (E : length (nd_ledger (fst (@run_node Toy ToyT true (key_of x0a) (fun _ => rnd0) genesis resent))) = 1) by (vm_compute; reflexivity).
  destruct (repeats_ok (@run_node Toy ToyT true (key_of x0a) (fun _ => rnd0) genesis resent)) as (nd & sent & A & B); [vm_compute; reflexivity|].
  exists resent, nd, sent. rewrite A in E. split; [exact A|]. split; [exact E|exact B].
Qed.
(** a node following the whole election *)
Example C48_case : is_some (sent_ids (@run_node Toy ToyT true (key_of x0a) (fun _ => rnd0) genesis (chain (firstn 11 plain)))) = true
  /\ length (due true (chain (firstn 11 plain))) = 11
  /\ match hook x0a (firstn 1 plain) with Ok sent => length sent | _ => 0 end = 1.
Proof. vm_compute. repeat split. Qed.

Print Assumptions C47_no_panic_partial.
Print Assumptions C47_observer_partial.
Print Assumptions C47_addressing_refuted.
Print Assumptions C47_short_share_refuted.
Print Assumptions C47_foreign_share_refuted.
Print Assumptions C47_spoilt_vote_refuted.
Print Assumptions C47_early_end_refuted.
Print Assumptions C48_in_order.
Print Assumptions C48_sent_exactly.
Print Assumptions C48_once_refuted.
Print Assumptions C48_refused_again_refuted.
