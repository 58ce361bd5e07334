(** * Props_Wire: C86 and C87, the wire formats.  [SpecDoc] describes which bytes and texts hold which items, [SpecWire]
    which items stand for which transactions, by shapes taken from the struct declarations. *)
From Verif Require Import Base BaseFacts Hex HexFacts Utf8 Cbor CborFacts Value Ident Crypto Types MapFacts Serde SerdeFacts SpecSerde
  ReserFacts Json JsonFacts SpecJson JsonTx SpecWire WireFacts SpecDoc DocFacts Toy Scene.
From Coq Require Strings.String.
Import String.StringSyntax.
Open Scope list_scope.

Section Props.
  Context {C : Crypto}.

  Lemma w_tx t : reads (de_tx t) ser_tx (tx_shape t).
  Proof.
    assert (G : forall A (d : D A) (s : A -> cval) (c : A -> Tx), (forall y, ser_tx (c y) = s y) -> reads d s (tx_shape t) ->
      reads (fun v => let! x := d v in Ok (c x)) ser_tx (tx_shape t)).
    { intros A d s c E R v w. rewrite <- (R v w). split.
      - intros (y & H & <-). apply bind_ok in H as (x & H & K). injection K as <-. exists x. auto.
      - intros (x & H & <-). exists (c x). split; [|apply E]. rewrite H. reflexivity. }
    destruct t; cbn [de_tx].
    - apply (G _ _ ser_election XElection); [reflexivity|apply w_election].
    - apply (G _ _ ser_commitment XCommitment); [reflexivity|apply w_commitment].
    - apply (G _ _ ser_share XShare); [reflexivity|apply w_share].
    - apply (G _ _ ser_pubkey XPublicKey); [reflexivity|apply w_pubkey].
    - apply (G _ _ ser_enckey XEncryptionKey); [reflexivity|apply w_enckey].
    - apply (G _ _ ser_vote XVote); [reflexivity|apply w_vote].
    - apply (G _ _ ser_votingend XVotingEnd); [reflexivity|apply w_votingend].
    - apply (G _ _ ser_mix XMix); [reflexivity|apply w_mix].
    - apply (G _ _ ser_partial XPartial); [reflexivity|apply w_partial].
    - apply (G _ _ ser_decryption XDecryption); [reflexivity|apply w_decryption].
  Qed.
  Lemma tag_is t : tag t = tag_name t.
  Proof. destruct t; reflexivity. Qed.
  Lemma de_tag_ok v t : de_tag v = Ok t <-> v = CText (tag_name t).
  Proof.
    split; [|intros ->; apply de_ser_tag]. intros H. unfold de_tag in H. apply bind_ok in H as (s & S & H). destruct v; try discriminate. injection S as ->.
    apply ok_or_ok, find_some in H as [_ H]. apply rs_eqb_eq in H. congruence.
  Qed.
  Lemma w_stx t v w : (exists x, de_stx v = Ok x /\ s_type x = t /\ ser_stx x = w) <-> means (signed t) v w.
  Proof.
    unfold signed. rewrite rec_rows.
    assert (W : reads (fun v => match v with CText s => if rs_eqb s (tag t) then Ok tt else fail | _ => fail end) (fun _ => CText (tag t)) (Word [tag t])).
    { intros a b. cbn [means]. split.
      - intros (y & E & <-). destruct a; try discriminate. destruct (rs_eqb s (tag t)) eqn:Q; [|discriminate]. apply rs_eqb_eq in Q. subst s.
        exists (tag t). split; [left; reflexivity|auto].
      - intros (s & [<-|[]] & -> & ->). exists tt. rewrite rs_eqb_refl. auto. }
    split.
    - intros (x & E & T & <-). destruct v as [| | | | |l| | | |]; try discriminate. cbn [de_stx de_struct] in E.
      apply bind_ok in E as (t' & E1 & E). apply bind_ok in E as (y & E2 & E). apply bind_ok in E as (g & E3 & E). injection E as <-.
      cbn [s_type s_tx] in T. pose proof (de_tx_type t') as DT.
      assert (t' = t).
      { unfold req in E2. destruct (lookup _ l) as [|z [|]]; try discriminate. apply DT in E2. unfold s_type in T. cbn [s_tx] in T. congruence. }
      subst t'. exists l. eexists. split; [reflexivity|]. split; [reflexivity|]. unfold must.
      eapply rows_must; [exact W| |cbv beta; rewrite <- T; f_equal; symmetry; apply tag_is|].
      { unfold req in *. destruct (lookup _ l) as [|z [|]]; try discriminate. apply de_tag_ok in E1. subst z.
        rewrite (proj2 (rs_eqb_eq (tag_name t) (tag t)) (eq_sym (tag_is t))). reflexivity. }
      eapply rows_must; [apply w_tx|exact E2|reflexivity|]. eapply rows_must; [apply w_sig|exact E3|reflexivity|]. reflexivity.
    - intros (m & m' & -> & -> & R). unfold must in R.
      eapply rows_must_inv in R; [|exact W]. destruct R as ([] & m1 & E1 & -> & R).
      eapply rows_must_inv in R; [|apply w_tx]. destruct R as (y & m2 & E2 & -> & R).
      eapply rows_must_inv in R; [|apply w_sig]. destruct R as (g & m3 & E3 & -> & R). cbn [rows] in R. subst m3.
      assert (T : tx_type y = t).
      { unfold req in E2. destruct (lookup _ m) as [|z [|]]; try discriminate. apply de_tx_type in E2. exact E2. }
      exists (mk_stx y g). split; [|split; [exact T|]].
      + cbn [de_stx de_struct]. eapply bind_intro.
        { unfold req in *. destruct (lookup _ m) as [|z [|]]; try discriminate. destruct z; try discriminate.
          destruct (rs_eqb s (tag t)) eqn:Q; [|discriminate]. apply rs_eqb_eq in Q. subst s. apply de_tag_ok. reflexivity. }
        cbv beta. eapply bind_intro; [exact E2|]. cbv beta. eapply bind_intro; [exact E3|]. reflexivity.
      + unfold ser_stx, s_type. cbn [s_tx s_sig]. rewrite T. reflexivity.
  Qed.

  (** C86: what is read.  [ser_stx x] is the item under which [x] is written.  A transaction of type [t] is read from the
      bytes exactly when they hold an item of the form for [t], and every field of it is what that item says. *)
  Theorem C86_read :
    forall p t w,
    (exists x, stx_from_bytes p = Ok x /\ s_type x = t /\ ser_stx x = w)
    <-> exists v, item 127 p v /\ means (signed t) v w.
  Proof.
    intros p t w. unfold stx_from_bytes. split.
    - intros (x & H & T & S). destruct (cbor_from_slice p) as [v|] eqn:E; [|discriminate]. exists v. split; [apply cbor_iff, E|]. apply w_stx. eauto.
    - intros (v & E & H). apply cbor_iff in E. rewrite E. apply w_stx in H. exact H.
  Qed.
  Lemma norm_same x : s_type (norm_stx x) = s_type x /\ ser_stx (norm_stx x) = ser_stx x.
  Proof.
    unfold norm_stx, s_type, ser_stx. cbn [s_tx s_sig].
    assert (E : tx_type (norm_tx (s_tx x)) = tx_type (s_tx x)) by (destruct (s_tx x); reflexivity).
    split; [exact E|]. unfold s_type. cbn [s_tx]. rewrite E, ser_norm. reflexivity.
  Qed.
  (** C86: what is written has the form itself, and stands for itself *)
  Theorem C86_written :
    forall x, means (signed (s_type x)) (ser_stx x) (ser_stx x).
  Proof.
    intros x. apply w_stx. exists (norm_stx x). exact (conj (de_ser_stx x) (norm_same x)).
  Qed.
  (** C86: bytes have at most one reading, as one type, and two transactions written alike have the same content *)
  Theorem C86_one_reading :
    forall p v v' t u w z, item 127 p v -> item 127 p v' -> means (signed t) v w -> means (signed u) v' z -> v = v' /\ t = u /\ w = z.
  Proof.
    intros p v v' t u w z I J A B. apply cbor_iff in I, J. assert (v = v') as <- by congruence.
    apply w_stx in A as (x & A & <- & <-). apply w_stx in B as (y & B & <- & <-). rewrite A in B. injection B as ->. auto.
  Qed.
  Theorem C86_written_alike :
    forall x y, ser_stx x = ser_stx y -> content_agree (s_tx x) (s_tx y) /\ s_sig x = s_sig y.
  Proof.
    intros x y H. pose proof (de_ser_stx x) as A. rewrite H, de_ser_stx in A. injection A as A B. split; [|symmetry; exact B].
    apply norm_agree. symmetry. exact A.
  Qed.

  (** C87: the same for JSON text, as it is posted to and returned by a node and kept in files *)
  Theorem C87_read :
    forall l t w,
    (exists x, stx_from_json l = Ok x /\ s_type x = t /\ ser_stx x = w)
    <-> exists v, document l v /\ means (signed t) v w.
  Proof.
    intros l t w. unfold stx_from_json. split.
    - intros (x & H & T & S). destruct (jparse l) as [j|] eqn:E; [|discriminate]. exists (content j). split; [apply json_iff; eauto|]. apply w_stx. eauto.
    - intros (v & E & H). apply json_iff in E as (j & -> & <-). apply w_stx in H. exact H.
  Qed.
  (** C87: a list of transactions *)
  Theorem C87_list :
    forall l ws,
    (exists xs, stxs_from_json l = Ok xs /\ map ser_stx xs = ws)
    <-> exists vs, document l (CArr vs) /\ Forall2 (fun v w => exists t, means (signed t) v w) vs ws.
  Proof.
    intros l ws. unfold stxs_from_json.
    assert (G : forall vs xs, map_res de_stx vs = Ok xs -> Forall2 (fun v w => exists t, means (signed t) v w) vs (map ser_stx xs)).
    { intros vs xs H. apply map_res_ok in H. induction H as [|v x vs xs H _ IH]; cbn [map]; constructor; [|exact IH].
      exists (s_type x). apply w_stx. eauto. }
    assert (G' : forall vs ws, Forall2 (fun v w => exists t, means (signed t) v w) vs ws -> exists xs, map_res de_stx vs = Ok xs /\ map ser_stx xs = ws).
    { intros vs zs H. induction H as [|v w vs zs (t & H) _ (xs & IH & M)]; [exists []; auto|]. apply w_stx in H as (x & H & _ & S).
      exists (x :: xs). cbn [map_res]. rewrite H. cbn [bind]. rewrite IH. cbn [bind map]. split; [reflexivity|congruence]. }
    split.
    - intros (xs & H & <-). destruct (jparse l) as [j|] eqn:E; [|discriminate]. destruct (content j) as [| | | |vs| | | | |] eqn:Cj; try discriminate.
      exists vs. split; [apply json_iff; eauto|]. apply G. exact H.
    - intros (vs & E & F). apply json_iff in E as (j & -> & ->). apply G' in F as (xs & H & M). exists xs. split; [exact H|exact M].
  Qed.
  (** C87: what is written stands for the transaction, in either layout *)
  Lemma from_text l j : jparse l = Some j -> stx_from_json l = de_stx (content j).
  Proof. unfold stx_from_json. intros ->. reflexivity. Qed.
  Lemma written_means x l j : jparse l = Some j -> stx_from_json l = Ok (norm_stx x) -> means (signed (s_type x)) (content j) (ser_stx x).
  Proof.
    intros P R. apply w_stx. exists (norm_stx x). exact (conj (eq_trans (eq_sym (from_text l j P)) R) (norm_same x)).
  Qed.
  #[local] Strategy 1000 [jprint jpretty jparse content j_stx stx_json stx_pretty stx_from_json].
  Theorem C87_written :
    forall x, text_forms (s_tx x) -> jdepth (j_stx x) <= max_depth ->
    exists v, document (stx_json x) v /\ document (stx_pretty x) v /\ means (signed (s_type x)) v (ser_stx x).
  Proof.
    intros x F D. pose proof (nums_stx x F) as Nn. pose proof (jparse_print _ Nn D) as P. pose proof (jparse_pretty _ Nn D) as P'.
    pose proof (json_roundtrip x F D) as R. unfold stx_json, stx_pretty in *.
    exists (content (j_stx x)). split; [apply json_iff; exists (j_stx x); exact (conj P eq_refl)|].
    split; [apply json_iff; exists (j_stx x); exact (conj P' eq_refl)|]. exact (written_means x _ (j_stx x) P R).
  Qed.
End Props.

(** a bundle of forms of one election: capital digits, a UUID as text, missing optional fields, an unknown field *)
Section Case.
  Let C := Toy.
  Existing Instance C.
  Definition upd (k : rstring) (f : cval -> cval) (v : cval) : cval :=
    match v with
    | CMap m => CMap (map (fun p => if key_is k p then (fst p, f (snd p)) else p) m)
    | _ => v
    end.
  Definition drop (k : rstring) (v : cval) : cval :=
    match v with CMap m => CMap (filter (fun p => negb (key_is k p)) m) | _ => v end.
  Definition add (k : rstring) (x v : cval) : cval := match v with CMap m => CMap ((CText k, x) :: m) | _ => v end.
  Definition each (f : cval -> cval) (v : cval) : cval := match v with CArr l => CArr (map f l) | _ => v end.
  Definition put (x : cval) (_ : cval) : cval := x.
  Definition v0 : cval := ser_stx (sgn x01 (XElection (election None))).
  Definition inside := upd (name "tx").
  (** every byte string as hexadecimal text *)
  Fixpoint spelt (v : cval) : cval :=
    match v with
    | CBytes l => hex_text l
    | CArr l => CArr (map spelt l)
    | CMap l => CMap (map (fun p => match p with (a, b) => (spelt a, spelt b) end) l)
    | v => v
    end.
  Definition variant : cval :=
    spelt (add (name "note") CNull (inside (fun e =>
      drop (name "mix_config") (drop (name "properties")
        (upd (name "id") (put (CText (name "1111111111111111111111111111110100000000000000000000000000000000")))
          (upd (name "authenticators") (each (upd (name "id") (put (CText (name "urn:uuid:55555555-5555-5555-5555-555555555555"))))) e)))) v0)).
  Definition same (v : cval) : bool :=
    match stx_from_bytes (cenc v), de_stx v with
    | Ok x, Ok y => bytes_eqb (stx_bytes x) (cenc v0) && bytes_eqb (stx_bytes y) (cenc v0) && cwf (ser_stx y) && tt_eqb (s_type y) TElection
    | _, _ => false
    end.
  Definition refused (v : cval) : bool := match stx_from_bytes (cenc v) with Err _ => true | _ => false end.
  Definition wrong : list cval :=
    [inside (upd (name "trustees_threshold") (put (CUint (u_of 8 258)))) v0;
     inside (add (name "trustees_threshold") (CUint (u_of 8 2))) v0;
     inside (upd (name "contests") (each (upd (name "num_winners") (put (CUint (u_of 8 4294967297)))))) v0;
     inside (drop (name "ballots")) v0;
     inside (upd (name "ballots") (put CNull)) v0;
     inside (upd (name "mix_config") (put (CBool false))) v0;
     inside (upd (name "trustees") (each (upd (name "index") (put (CText (name "1")))))) v0;
     inside (upd (name "trustees") (each (add (name "threshold") (CUint (u_of 8 300))))) v0;
     inside (upd (name "contests") (each (upd (name "contest_type") (put (CText (name "Plurality")))))) v0;
     upd (name "type") (put (CText (name "vote"))) v0;
     upd (name "sig") (put (CText (name "00"))) v0;
     upd (name "sig") (put (CBytes (repeat x00 63))) v0;
     inside (upd (name "id") (put (CBytes (repeat x01 32)))) v0].
  Example C86_case : cwf v0 && same v0 && same variant && negb (bytes_eqb (cenc v0) (cenc variant)) && forallb refused wrong = true.
  Proof. vm_compute. reflexivity. Qed.
  (** both stand for the same thing *)
  Lemma same_means v : cwf v0 = true -> same v = true -> means (signed TElection) v v0.
  Proof.
    unfold same. intros W H. destruct (stx_from_bytes (cenc v)) as [x| |]; try discriminate. destruct (de_stx v) as [y| |] eqn:E; try discriminate.
    apply andb_true_iff in H as [H T]. apply andb_true_iff in H as [H Y]. apply andb_true_iff in H as [_ H]. apply bytes_eqb_eq in H. apply IdentFacts.tt_eqb_eq in T.
    apply w_stx. exists y. split; [exact E|]. split; [exact T|]. apply cenc_inj; assumption.
  Qed.
  Example C86_variant : means (signed TElection) v0 v0 /\ means (signed TElection) variant v0 /\ v0 <> variant.
  Proof.
    pose proof C86_case as H. apply andb_true_iff in H as [H _]. apply andb_true_iff in H as [H N]. apply andb_true_iff in H as [H V].
    apply andb_true_iff in H as [W Z]. split; [apply same_means; assumption|]. split; [apply same_means; assumption|].
    intros Q. rewrite <- Q in N. apply negb_true_iff in N. rewrite (proj2 (bytes_eqb_eq (cenc v0) (cenc v0)) eq_refl) in N. discriminate.
  Qed.
End Case.

(** ** Texts *)
Section Texts.
  Let C := Toy.
  Existing Instance C.
  Definition says (v : cval) (l : bytes) : bool :=
    match jparse l with Some j => bytes_eqb (cenc (content j)) (cenc v) && cwf (content j) && cwf v | None => false end.
  Lemma says_document v l : says v l = true -> document l v.
  Proof.
    unfold says. intros H. apply json_iff. destruct (jparse l) as [j|]; [|discriminate]. exists j. split; [reflexivity|].
    apply andb_true_iff in H as [H W]. apply andb_true_iff in H as [H V]. apply bytes_eqb_eq in H. apply cenc_inj; assumption.
  Qed.
  (** q: the double quote *)
  Definition q (s : bytes) : bytes := map (fun b => if Byte.eqb b x27 then x22 else b) s.
  Definition sample : bytes := q (sv (name "  {'a' : [ 1,-2 ,2.50E+1, -0,18446744073709551616],'\u00e9\n\ud83d\uDE00': [ ] , '':null}   ")).
  Definition sample_item : cval :=
    CMap [(CText (name "a"), CArr [CUint (u_of 8 1); CNint (u_of 8 1); kept (name "2.50e1"); CUint (u_of 8 0); kept (name "18446744073709551616")]);
          (CText (@mk_sub bytes utf8_valid [xc3; xa9; x0a; xf0; x9f; x98; x80] eq_refl), CArr []); (CText (name ""), CNull)].
  Definition no_text : list bytes :=
    map q [sv (name ""); sv (name "[1,]"); sv (name "01"); sv (name "1."); sv (name ".5"); sv (name "+1"); sv (name "1e"); sv (name "'\ud83d'"); sv (name "'\ude00'");
           sv (name "'\ud83d\u0041'"); sv (name "{'a' 1}"); sv (name "{1:1}"); sv (name "nul"); sv (name "[1] 2"); sv (name "'\x41'"); sv (name "[1 2]"); sv (name "'a");
           x22 :: x0a :: [x22]; x22 :: xff :: [x22]].
  Example C87_case : says sample_item sample && forallb (fun l => match jparse l with None => true | _ => false end) no_text = true.
  Proof. vm_compute. reflexivity. Qed.
  Example C87_sample : document sample sample_item /\ forall l v, In l no_text -> ~ document l v.
  Proof.
    pose proof C87_case as H. apply andb_true_iff in H as [H N]. split; [apply says_document, H|]. intros l v I D. rewrite forallb_forall in N. specialize (N l I).
    apply json_iff in D as (j & E & _). rewrite E in N. discriminate.
  Qed.
  (** the variant election of C86 as text *)
  Definition variant_text : bytes := jpretty (to_json variant).
  Example C87_variant_case :
    says variant variant_text && match stx_from_json variant_text with Ok y => bytes_eqb (stx_bytes y) (cenc v0) | _ => false end = true.
  Proof. vm_compute. reflexivity. Qed.
  Example C87_variant : exists v, document variant_text v /\ means (signed TElection) v v0.
  Proof.
    pose proof C87_variant_case as H. apply andb_true_iff in H as [H _]. exists variant. split; [apply says_document, H|]. apply C86_variant.
  Qed.
End Texts.

Print Assumptions C86_read.
Print Assumptions C86_written.
Print Assumptions C86_one_reading.
Print Assumptions C86_written_alike.
Print Assumptions C87_read.
Print Assumptions C87_list.
Print Assumptions C87_written.
