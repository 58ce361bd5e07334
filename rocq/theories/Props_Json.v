(** * C81, C82: the texts in which transactions travel between the nodes, the client and its files. *)
From Verif Require Import Base BaseFacts Hex HexFacts Utf8 Cbor CborFacts Value ValueFacts Ident BuildId IdentFacts Crypto Types Serde SpecSerde SerdeFacts
  Store SpecStore StoreFacts Prost Validate ValidateFacts Exonum SpecLedger Api Encrypt Audit Cli SpecCli CliFacts Json SpecJson JsonFacts JsonTx Rest RestFacts
  ReserFacts NormFacts Trustee Tasks SpecTasks SpecThreshold SpecRun Toy ToyT ToyE Scene Props_Serde Props_Threshold Props_Run.
From Coq Require Import Strings.String.
Import List ListNotations.
Open Scope list_scope.

#[local] Strategy 1000 [stx_from_bytes stx_from_json stxs_from_json stx_json stxs_json api_decode].
Section Props.
  Context {C : Crypto}.
  (** the same transaction but for the helper fields of trustees, which are not part of it *)
  Definition same (x y : STx) : Prop := s_sig y = s_sig x /\ content_agree (s_tx x) (s_tx y).
  Lemma norm_same x : same x (norm_stx x).
  Proof. split; [reflexivity|apply norm_content]. Qed.
  Lemma same_norm x y : same x y -> norm_stx x = norm_stx y.
  Proof. intros [S H]. unfold norm_stx. rewrite S, (agree_norm _ _ H). reflexivity. Qed.

  Lemma decoded_entry e x : api_decode e = Ok x -> stx_from_bytes (en_data e) = Ok x.
  Proof. unfold api_decode. destruct (stx_from_bytes (en_data e)); cbn [map_err]; intros H; [injection H as ->; reflexivity|discriminate|discriminate]. Qed.

  Lemma verify_norm x : verify_signature (norm_stx x) = verify_signature x.
  Proof.
    assert (B : tx_bytes (norm_tx (s_tx x)) = tx_bytes (s_tx x)) by (unfold tx_bytes; rewrite ser_norm; reflexivity).
    assert (P : tx_public (norm_tx (s_tx x)) = tx_public (s_tx x)) by (destruct (s_tx x); reflexivity).
    unfold verify_signature. cbn [norm_stx s_tx s_sig]. rewrite P, B. reflexivity.
  Qed.
  Lemma plain_stx x : plain (s_tx x) -> norm_stx x = x.
  Proof. intros P. unfold norm_stx. rewrite (norm_plain_id _ P). destruct x; reflexivity. Qed.
  Lemma got_depth L k x : get_tx L k = Ok x -> text_forms (s_tx x) -> jdepth (j_stx x) <= max_depth.
  Proof.
    unfold get_tx. destruct (bt_get L (sv k)) as [e|]; [|discriminate]. cbn [ok_or bind]. intros F. apply (json_depth (en_data e)). apply decoded_entry, F.
  Qed.

  (** ** C81, one transaction: the client gets what the node holds, or the node's refusal *)
  Theorem C81_served :
    forall L i,
    (forall x, fetch L i = Ok x -> text_forms (s_tx x) ->
       exists y, rest_get L i = Ok y /\ same x y /\ verify_signature y = verify_signature x /\ into_env y = into_env x
         /\ (plain (s_tx x) -> y = x))
    /\ (forall e, fetch L i = Err e <-> rest_get L i = Err (Status e)).
  Proof.
    intros L i. unfold rest_get, body_tx, fetch. match goal with |- context [get_tx L ?a] => generalize a end. intros k. split.
    - intros x F T. rewrite F. cbn [bind map_err]. rewrite (json_roundtrip x T (got_depth L k x F T)). exists (norm_stx x).
      split; [reflexivity|]. split; [apply norm_same|]. split; [apply verify_norm|]. split; [apply into_norm|apply plain_stx].
    - intros e. destruct (get_tx L k) as [x|e'|p]; cbn [bind map_err].
      + generalize (stx_from_json (stx_json x)). intros [y|u|p]; cbn [map_err]; split; discriminate.
      + split; intros H; injection H as ->; reflexivity.
      + split; discriminate.
  Qed.

  (** ** C81, a listing: what the node lists, when no item is nested to the last level *)
  Lemma listed p : forall L l, take_prefix p L = Ok l ->
    forall x, In x l -> exists k e, In (k, e) L /\ starts_with k p = true /\ stx_from_bytes (en_data e) = Ok x.
  Proof.
    induction L as [|[k e] L IH]; cbn [take_prefix]; intros l H x I; [injection H as <-; destruct I|].
    destruct (starts_with k p) eqn:S; cbn [negb] in H; [|injection H as <-; destruct I].
    apply bind_ok in H as (y & D & H). apply bind_ok in H as (r & R & X). injection X as <-. destruct I as [<-|I].
    - exists k, e. split; [left; reflexivity|]. split; [exact S|apply decoded_entry, D].
    - destruct (IH r R x I) as (k' & e' & A & B). exists k', e'. split; [right; exact A|exact B].
  Qed.
  Lemma iter_in (L : Ledger) k x : In x (iter_from L k) -> In x L.
  Proof. unfold iter_from. intros H. apply filter_In in H. exact (proj1 H). Qed.

  (** the entries of the ledger under a prefix travel in JSON lists *)
  Definition travels (L : Ledger) (p : bytes) : Prop :=
    forall k e x, In (k, e) L -> starts_with k p = true -> carries e x -> text_forms (s_tx x) /\ nested 126 (en_data e).
  Lemma listing_ok L (p : rstring) l : travels L (sv p) -> get_all L (Some p) = Ok l -> rest_list L p = Ok (map norm_stx l).
  Proof.
    intros T G. unfold rest_list, body_all. rewrite G. cbn [bind map_err].
    assert (A : forall x, In x l -> text_forms (s_tx x) /\ Datatypes.S (jdepth (j_stx x)) <= max_depth).
    { intros x I. destruct (listed _ _ _ G x I) as (k & e & Ie & Sk & D). apply iter_in in Ie. destruct (T k e x Ie Sk D) as [Tx Ne]. split; [exact Tx|].
      pose proof (json_nested 126 _ _ D Tx Ne ltac:(lia)) as J. change max_depth with 127. lia. }
    rewrite jsons_roundtrip; [reflexivity| |]; intros x I; apply (A x I).
  Qed.
  Theorem C81_listing_partial :
    forall L (p : rstring), travels L (sv p) ->
    (forall l, get_all L (Some p) = Ok l ->
       exists l', rest_list L p = Ok l' /\ Forall2 same l l' /\ ((forall x, In x l -> plain (s_tx x)) -> l' = l))
    /\ (forall e, get_all L (Some p) = Err e <-> rest_list L p = Err (Status e)).
  Proof.
    intros L p T. split.
    - intros l G. exists (map norm_stx l). split; [apply listing_ok; assumption|]. split.
      + clear. induction l; constructor; auto using norm_same.
      + intros Pl. clear -Pl. induction l as [|x l IH]; [reflexivity|]. cbn [map]. rewrite IH by (intros; apply Pl; right; assumption). f_equal.
        unfold norm_stx. rewrite norm_plain_id by (apply Pl; left; reflexivity). destruct x; reflexivity.
    - intros e. split; [intros G; unfold rest_list, body_all; rewrite G; reflexivity|]. intros R. destruct (get_all L (Some p)) as [l|e'|q] eqn:G.
      + rewrite (listing_ok L p l T G) in R. discriminate.
      + unfold rest_list, body_all in R. rewrite G in R. injection R as ->. reflexivity.
      + unfold rest_list, body_all in R. rewrite G in R. discriminate.
  Qed.

  (** ** C81, the audit over text: the verdict of the audit over the ledger *)
  Theorem C81_audit_partial :
    forall dbg L (s : rstring), travels L (firstn 15 (sv s)) ->
    match command_e2e dbg L s, text_e2e dbg L s with
    | Ok m, Ok m' => Forall2 (fun a b => fst a = fst b /\ same (snd a) (snd b)) m m'
    | Err e, Err e' => e = e'
    | Panic p, Panic p' => p = p'
    | _, _ => False
    end.
  Proof.
    intros dbg L s T. unfold command_e2e, text_e2e. destruct (fail_if _ _) as [[]|e|p]; cbn [bind]; try reflexivity.
    destruct (is_char_boundary (sv s) 15); cbn [bind]; [|reflexivity]. destruct (sub_of utf8_valid (firstn 15 (sv s))) as [p|] eqn:P; [|reflexivity].
    apply sub_of_some in P. rewrite <- P in T. destruct (get_all L (Some p)) as [l|e|q] eqn:G.
    - rewrite (listing_ok L p l T G), audit_norm. destruct (audit dbg l) as [m|e|q]; cbn [map_ok]; try reflexivity.
      unfold cleared_ms. clear. induction m as [|[k x] m IH]; cbn [map]; constructor; auto. cbn [fst snd]. split; [reflexivity|apply norm_same].
    - assert (R : rest_list L p = Err (Status e)) by (unfold rest_list, body_all; change (Some p) with (@Some rstring p) in G; rewrite G; reflexivity). rewrite R. reflexivity.
    - assert (R : rest_list L p = Panic q) by (unfold rest_list, body_all; change (Some p) with (@Some rstring p) in G; rewrite G; reflexivity). rewrite R. reflexivity.
  Qed.

  (** ** C81, files: a printed transaction that is posted *)
  Lemma j_norm x : j_stx (norm_stx x) = j_stx x.
  Proof.
    unfold j_stx. assert (Ty : s_type (norm_stx x) = s_type x) by (unfold s_type; cbn [norm_stx s_tx]; destruct (s_tx x); reflexivity). rewrite Ty. cbn [norm_stx s_tx s_sig].
    destruct (s_tx x) as [e| | | | | | | | |]; try reflexivity. cbn [norm_tx j_tx]. unfold j_election. cbn [norm_election el_trustees el_id el_authority el_threshold el_authenticators el_auth_threshold el_mix_config el_ballots el_contests el_props].
    unfold ser_list. rewrite map_map. reflexivity.
  Qed.
  Lemma sent_depth n x : SpecCli.small n (ser_stx x) -> 7 <= n -> n <= 127 -> text_forms (s_tx x) -> jdepth (j_stx x) <= n.
  Proof.
    intros [W D] L7 L T. assert (R : stx_from_bytes (stx_bytes x) = Ok (norm_stx x)) by (apply stx_roundtrip; [exact W|exact (Nat.le_trans _ _ _ D L)]).
    rewrite <- j_norm. apply (json_nested n (stx_bytes x)); auto.
    - cbn [norm_stx s_tx]. destruct (s_tx x); exact T.
    - intros v S. unfold stx_bytes in S. rewrite (cbor_roundtrip _ W (Nat.le_trans _ _ _ D L)) in S. injection S as <-. exact D.
  Qed.

  (** a text in brackets reads the same with white space around it *)
  Lemma obj_text nl colon n l : l <> [] -> exists t, jwrite nl colon n (JObj l) = x7b :: t ++ [x7d].
  Proof. intros N. destruct l as [|p l]; [congruence|]. cbn [jwrite]. eexists. rewrite app_assoc. reflexivity. Qed.
  Lemma arr_text nl colon n l : exists t, jwrite nl colon n (JArr l) = x5b :: t ++ [x5d].
  Proof. destruct l as [|p l]; [exists []; reflexivity|]. cbn [jwrite]. eexists. rewrite app_assoc. reflexivity. Qed.
  Definition blank (w : bytes) : Prop := forallb is_ws w = true.
  Lemma file_text w1 w2 t : blank w1 -> blank w2 -> utf8_valid t = true -> utf8_valid (w1 ++ t ++ w2) = true.
  Proof. intros A B U. apply utf8_app; [apply ws_ascii, A|]. apply utf8_app; [exact U|apply ws_ascii, B]. Qed.
  Lemma read_one w1 w2 nl colon x : blank w1 -> blank w2 -> (forall n, utf8_valid (nl n) = true) -> utf8_valid colon = true ->
    stx_from_json (jwrite nl colon 0 (j_stx x)) = Ok (norm_stx x) ->
    read_file (w1 ++ jwrite nl colon 0 (j_stx x) ++ w2) = Ok [norm_stx x].
  Proof.
    intros A B U1 U2 R. pose proof (jwrite_utf8 nl colon (j_stx x) U1 U2 0) as U. unfold j_stx in *.
    match type of R with context [JObj ?l] => destruct (obj_text nl colon 0 l ltac:(discriminate)) as (t & E) end. rewrite E in *.
    unfold read_file. rewrite (file_text w1 w2 _ A B U), (trim_around w1 w2 x7b t x7d A B eq_refl eq_refl). cbn [Byte.eqb]. change (Byte.eqb x7b x5b) with false.
    cbv iota. rewrite R. reflexivity.
  Qed.
  Lemma read_list w1 w2 nl colon l r : blank w1 -> blank w2 -> (forall n, utf8_valid (nl n) = true) -> utf8_valid colon = true ->
    stxs_from_json (jwrite nl colon 0 (jlist j_stx l)) = Ok r -> read_file (w1 ++ jwrite nl colon 0 (jlist j_stx l) ++ w2) = Ok r.
  Proof.
    intros A B U1 U2 R. pose proof (jwrite_utf8 nl colon (jlist j_stx l) U1 U2 0) as U. unfold jlist in *.
    destruct (arr_text nl colon 0 (map j_stx l)) as (t & E). rewrite E in *.
    unfold read_file. rewrite (file_text w1 w2 _ A B U), (trim_around w1 w2 x5b t x5d A B eq_refl eq_refl). change (Byte.eqb x5b x5b) with true.
    cbv iota. rewrite R. reflexivity.
  Qed.
  Lemma compact_nl : forall n : nat, utf8_valid (@nil byte) = true.
  Proof. reflexivity. Qed.
  Lemma pretty_nl n : utf8_valid (x0a :: repeat x20 (2 * n)) = true.
  Proof. apply ascii_utf8. cbn [forallb]. apply andb_true_intro. split; [reflexivity|]. induction (2 * n); [reflexivity|assumption]. Qed.
  Lemma post_norm dbg l : forall L, cli_post dbg L (map norm_stx l) = cli_post dbg L l.
  Proof. induction l as [|x l IH]; intros L; [reflexivity|]. unfold cli_post in *. cbn [map fold_left]. rewrite IH. unfold post. rewrite into_norm. reflexivity. Qed.

  (** what the commands print can be kept in a file, with blank lines around it, and posted *)
  Theorem C81_posted :
    forall x w1 w2 f, transportable x -> text_forms (s_tx x) -> blank w1 -> blank w2 ->
    f = w1 ++ printed x ++ w2 \/ f = w1 ++ stx_json x ++ w2 ->
    (exists y, read_file f = Ok [y] /\ same x y /\ verify_signature y = verify_signature x)
    /\ forall dbg L, post_file dbg L f = Ok (post dbg L x).
  Proof.
    intros x w1 w2 f Tr T A B F. assert (D : jdepth (j_stx x) <= max_depth) by (apply (sent_depth 127 x Tr); [lia|lia|exact T]).
    assert (R : read_file f = Ok [norm_stx x]).
    { destruct F as [-> | ->].
      - unfold printed. rewrite <- app_assoc. apply read_one; [exact A| |exact pretty_nl|reflexivity|apply (pretty_roundtrip x T D)]. unfold blank. cbn [app forallb]. exact B.
      - apply read_one; [exact A|exact B|exact compact_nl|reflexivity|apply (json_roundtrip x T D)]. }
    split; [exists (norm_stx x); split; [exact R|split; [apply norm_same|apply verify_norm]]|].
    intros dbg L. unfold post_file. rewrite R. cbn [bind cli_post fold_left]. unfold post. rewrite into_norm. reflexivity.
  Qed.
  (** a list, as a node serves it *)
  Theorem C81_posted_list :
    forall l w1 w2, (forall x, In x l -> SpecCli.small 126 (ser_stx x) /\ text_forms (s_tx x)) -> blank w1 -> blank w2 ->
    forall dbg L, post_file dbg L (w1 ++ stxs_json l ++ w2) = Ok (cli_post dbg L l).
  Proof.
    intros l w1 w2 H A B dbg L. assert (R : read_file (w1 ++ stxs_json l ++ w2) = Ok (map norm_stx l)).
    { apply read_list; [exact A|exact B|exact compact_nl|reflexivity|]. apply jsons_roundtrip; [intros x I; apply (H x I)|].
      intros x I. destruct (H x I) as [Sm T]. exact (le_n_S _ _ (sent_depth 126 x Sm ltac:(lia) ltac:(lia) T)). }
    unfold post_file. rewrite R. cbn [bind]. rewrite post_norm. reflexivity.
  Qed.

  (** ** C81, the text determines the transaction *)
  Theorem C81_text_determines :
    forall x y, transportable x -> transportable y -> text_forms (s_tx x) -> text_forms (s_tx y) ->
    (stx_json x = stx_json y <-> same x y) /\ (stx_pretty x = stx_pretty y <-> same x y).
  Proof.
    intros x y Tx Ty Fx Fy. assert (Dx : jdepth (j_stx x) <= max_depth) by (apply (sent_depth 127 x Tx); [lia|lia|exact Fx]).
    assert (Dy : jdepth (j_stx y) <= max_depth) by (apply (sent_depth 127 y Ty); [lia|lia|exact Fy]).
    assert (N : norm_stx x = norm_stx y -> same x y).
    { intros H. pose proof (f_equal s_sig H) as H1. pose proof (f_equal s_tx H) as H2. cbn [norm_stx s_sig s_tx] in H1, H2. split; [congruence|apply norm_agree, H2]. }
    assert (J : same x y -> j_stx x = j_stx y) by (intros H; rewrite <- (j_norm x), <- (j_norm y), (same_norm x y H); reflexivity).
    split; split.
    - intros E. apply N. pose proof (json_roundtrip x Fx Dx) as R. rewrite E, (json_roundtrip y Fy Dy) in R. injection R as R1 R2. unfold norm_stx. congruence.
    - intros H. unfold stx_json. rewrite (J H). reflexivity.
    - intros E. apply N. pose proof (pretty_roundtrip x Fx Dx) as R. rewrite E, (pretty_roundtrip y Fy Dy) in R. injection R as R1 R2. unfold norm_stx. congruence.
    - intros H. unfold stx_pretty. rewrite (J H). reflexivity.
  Qed.

  (** ** C82: nothing depends on the helper fields of trustees, which are not signed *)
  Lemma from_norm l : forall m, fold_left ms_set (map norm_stx l) (cleared_ms m) = cleared_ms (fold_left ms_set l m).
  Proof. induction l as [|x l IH]; intros m; [reflexivity|]. cbn [map fold_left]. rewrite set_cleared. apply IH. Qed.
  Lemma validate_cleared dbg l x : validate dbg (ms_store (ms_from (map norm_stx l))) (norm_stx x) = validate dbg (ms_store (ms_from l)) x.
  Proof. unfold ms_from. change ms_empty with (cleared_ms ms_empty). rewrite from_norm. apply validate_norm, ms_cleared. Qed.
  Lemma sames l l' : Forall2 same l l' -> map norm_stx l = map norm_stx l'.
  Proof. induction 1 as [|x y l l' S _ IH]; [reflexivity|]. cbn [map]. rewrite IH, (same_norm x y S). reflexivity. Qed.
  Theorem C82_helper_fields :
    forall dbg l l' x x', Forall2 same l l' -> same x x' ->
    validate dbg (ms_store (ms_from l)) x = validate dbg (ms_store (ms_from l')) x'
    /\ match audit dbg l, audit dbg l' with
       | Ok m, Ok m' => Forall2 (fun a b => fst a = fst b /\ same (snd a) (snd b)) m m'
       | Err e, Err e' => e = e'
       | Panic p, Panic p' => p = p'
       | _, _ => False
       end.
  Proof.
    intros dbg l l' x x' Hl Hx. split.
    - rewrite <- (validate_cleared dbg l x), <- (validate_cleared dbg l' x'), (sames _ _ Hl), (same_norm _ _ Hx). reflexivity.
    - pose proof (audit_norm dbg l) as A. pose proof (audit_norm dbg l') as A'. rewrite (sames _ _ Hl) in A. rewrite A in A'. clear A.
      destruct (audit dbg l) as [m|e|p], (audit dbg l') as [m'|e'|p']; cbn [map_ok] in A'; try discriminate; try (injection A' as A'; congruence).
      apply (f_equal (fun r => match r with Ok a => a | _ => [] end)) in A'. cbv beta iota in A'. unfold cleared_ms in A'. clear -A'. revert m' A'.
      induction m as [|[k a] m IH]; intros [|[k' b] m'] H; try discriminate; [constructor|]. cbn [map fst snd] in H.
      pose proof (f_equal (@tl _) H) as Ht. apply (f_equal (@hd _ (k, norm_stx a))) in H. cbn [hd tl] in H, Ht.
      constructor; [|apply IH, Ht]. cbn [fst snd]. pose proof (f_equal fst H) as H1. pose proof (f_equal snd H) as H2. cbn [fst snd] in H1, H2. split; [exact H1|].
      pose proof (f_equal s_sig H2) as H3. pose proof (f_equal s_tx H2) as H4. cbn [norm_stx s_sig s_tx] in H3, H4. split; [congruence|apply norm_agree, H4].
  Qed.
End Props.

(** ** Concrete cases *)
(** a whole election with a mixnet, run by the nodes of C70: every transaction meets the hypotheses *)
Section Case.
  #[local] Existing Instance ToyE.
  #[local] Existing Instance ToyET.
  Definition formsb (t : Tx) : bool :=
    match t with
    | XElection _ | XShare _ | XVotingEnd _ | XDecryption _ => true
    | XCommitment t => text_like (sv (kc_commitment t))
    | XPublicKey t => text_like (sv (kp_key t)) && text_like (sv (kp_proof t))
    | XEncryptionKey t => text_like (sv (ek_key t))
    | XVote t => forallb (fun e => forallb (fun c => text_like (sv c)) (ev_selections e)) (vt_votes t)
    | XMix t => forallb (forallb (fun c => text_like (sv c))) (mx_out t) && text_like (sv (mx_proof t))
    | XPartial t => forallb (fun s => text_like (sv s)) (pd_shares t)
    end.
  Lemma formsb_ok t : formsb t = true -> text_forms t.
  Proof.
    destruct t as [t|t|t|t|t|t|t|t|t|t]; cbn [formsb text_forms]; auto.
    - apply andb_true_iff.
    - intros H e c Ie Ic. rewrite forallb_forall in H. specialize (H e Ie). rewrite forallb_forall in H. auto.
    - intros H. apply andb_true_iff in H as [H P]. split; [|exact P]. intros r c Ir Ic. rewrite forallb_forall in H. specialize (H r Ir). rewrite forallb_forall in H. auto.
    - intros H s Is. rewrite forallb_forall in H. auto.
  Qed.
  Definition smallb (x : STx) : bool := cwf (ser_stx x) && Nat.leb (cdepth (ser_stx x)) 126.
  Definition typed (t : TxType) (h : list STx) : bool := existsb (fun x => tt_eqb (s_type x) t) h.
  Lemma C81_formsM : match runs elM TM [n32 0] x01 stepsM with
    | Some h => Nat.eqb (List.length h) 16 && forallb (fun x => formsb (s_tx x) && smallb x) h
                && forallb (fun t => typed t h) [TElection; TKeyGenCommitment; TKeyGenShare; TKeyGenPublicKey; TEncryptionKey; TVote; TVotingEnd; TMix; TPartialDecryption; TDecryption]
    | None => false
    end = true.
  Proof. vm_compute. reflexivity. Qed.
  Example C81_example : exists h, runs elM TM [n32 0] x01 stepsM = Some h /\ List.length h = 16
    /\ (forall x, In x h -> transportable x /\ text_forms (s_tx x)
          /\ forall dbg L, post_file dbg L (printed x) = Ok (post dbg L x))
    /\ (forall dbg L, post_file dbg L (stxs_json h) = Ok (cli_post dbg L h)).
  Proof.
    pose proof C81_formsM as H. destruct (runs elM TM [n32 0] x01 stepsM) as [h|]; [|discriminate]. exists h. split; [reflexivity|].
    apply andb_true_iff in H as [H _]. apply andb_true_iff in H as [Ln H]. apply Nat.eqb_eq in Ln. split; [exact Ln|]. rewrite forallb_forall in H.
    assert (A : forall x, In x h -> SpecCli.small 126 (ser_stx x) /\ text_forms (s_tx x)).
    { intros x I. specialize (H x I). apply andb_true_iff in H as [F S]. apply andb_true_iff in S as [W D]. apply Nat.leb_le in D. split; [split; assumption|apply formsb_ok, F]. }
    split.
    - intros x I. destruct (A x I) as [[W D] F]. assert (T : transportable x) by (split; [exact W|exact (Nat.le_trans _ _ _ D (le_S _ _ (le_n 126)))]).
      split; [exact T|]. split; [exact F|]. intros dbg L. destruct (C81_posted x [] [] (printed x) T F eq_refl eq_refl) as [_ P]; [left; rewrite app_nil_r; reflexivity|]. apply P.
    - intros dbg L. pose proof (C81_posted_list h [] [] A eq_refl eq_refl dbg L) as P. rewrite app_nil_r in P. exact P.
  Qed.
End Case.

(** C81 refuted without the condition on listings: an election nested to the last level is accepted and
    served, but no listing with it can be read by the client; by choosing an election identifier with the
    same first fifteen digits, anyone can make the audit of another election fail in this way. *)
Section Refuted.
  #[local] Existing Instance Toy.
  Definition el_of (i : Identifier) (p : props) : STx := sgn x01 (XElection
    (mk_election i (pk_of x01) [Scene.T x0a x01; Scene.T x0b x02] x02 [auth1] x01 None [ballot1] [contest0] p)).
  Definition last_level : props := @mk_sub _ (nodup_keys rs_eqb) [(b1, @mk_sub _ jok (deep 124) eq_refl)] eq_refl.
  Definition EID2 : Identifier := election_build_id (@mk_arr 15 (repeat x11 8 ++ repeat x22 7) eq_refl).
  Definition ids : rstring := @mk_sub bytes utf8_valid (id_to_string EID) eq_refl.
  Definition p15 : rstring := @mk_sub bytes utf8_valid (firstn 15 (id_to_string EID)) eq_refl.
  Definition isok {E A} (m : res E A) : bool := match m with Ok _ => true | _ => false end.
  Lemma isok_ok {E A} (m : res E A) : isok m = true -> exists a, m = Ok a.
  Proof. destruct m; try discriminate. eauto. Qed.
  Theorem C81_listing_refuted :
    exists L x p l, (exists L0, L = post true L0 x /\ List.length L = Datatypes.S (List.length L0))
      /\ fetch L (s_id x) = Ok x /\ (forall y, In y l -> text_forms (s_tx y))
      /\ get_all L (Some p) = Ok l /\ rest_list L p = Err BadBody.
  Proof.
    set (x := el_of EID2 last_level). exists (post true [] x), x, p15.
    assert (T : transportable x) by (split; [vm_compute; reflexivity|apply Nat.leb_le; vm_compute; reflexivity]).
    assert (A : isok (get_all (post true [] x) (Some p15)) = true) by (vm_compute; reflexivity). destruct (isok_ok _ A) as [l G]. exists l.
    assert (P : post true [] x = [(id_to_string (s_id x), into_env x)]).
    { unfold post. unfold submit. destruct (verify_and_store true [] (into_env x)) as [L'|e|q] eqn:V.
      - apply (post_ok true [] x L' T) in V as (_ & _ & ->). reflexivity.
      - exfalso. assert (B : isok (verify_and_store true [] (into_env x)) = true) by (vm_compute; reflexivity). rewrite V in B. discriminate.
      - exfalso. assert (B : isok (verify_and_store true [] (into_env x)) = true) by (vm_compute; reflexivity). rewrite V in B. discriminate. }
    split; [exists []; split; [reflexivity|rewrite P; reflexivity]|]. split.
    { rewrite P. change [(id_to_string (s_id x), into_env x)] with (bt_insert [] (id_to_string (s_id x)) (into_env x)). rewrite (fetch_inserted [] x T). reflexivity. }
    split; [|split; [exact G|vm_compute; reflexivity]].
    intros y I. destruct (listed _ _ _ G y I) as (k & e & Ie & _ & D). apply iter_in in Ie. rewrite P in Ie. destruct Ie as [Ie|[]]. injection Ie as <- <-.
    cbn [into_env en_data] in D. rewrite (stx_roundtrip x (proj1 T) (proj2 T)) in D. injection D as <-. exact Logic.I.
  Qed.
  Theorem C81_audit_refuted :
    exists L L' x (s : rstring), L' = post true L x /\ isok (text_e2e true L s) = true /\ isok (command_e2e true L' s) = true
      /\ text_e2e true L' s = Panic PUnwrap.
  Proof. exists (post true [] (el_of EID no_props)), (post true (post true [] (el_of EID no_props)) (el_of EID2 last_level)), (el_of EID2 last_level), ids. split; [reflexivity|]. split; [vm_compute; reflexivity|]. split; vm_compute; reflexivity. Qed.

  (** C82: an election whose trustees carry helper fields, and one where they do not *)
  Definition el_helped (i : Identifier) : STx := sgn x01 (XElection
    (mk_election i (pk_of x01) [mk_trustee (pk_of x0a) x01 (u_of 8 7) x05; mk_trustee (pk_of x0b) x02 (u_of 8 9) x01] x02 [auth1] x01 None [ballot1] [contest0] no_props)).
  Example C82_example : same (el_helped EID) (el_of EID no_props) /\ el_helped EID <> el_of EID no_props
    /\ validate true (ms_store (ms_from [el_helped EID])) (commitment x0a x01) = Ok tt.
  Proof.
    split; [split; [apply sub_ext; vm_compute; reflexivity|]|split; [|vm_compute; reflexivity]].
    - repeat split. repeat constructor.
    - intros H. apply (f_equal (fun x => match s_tx x with XElection e => map (fun t => tr_threshold t) (el_trustees e) | _ => [] end)) in H. discriminate.
  Qed.
End Refuted.

Print Assumptions C81_served.
Print Assumptions C81_listing_partial.
Print Assumptions C81_audit_partial.
Print Assumptions C81_posted.
Print Assumptions C81_posted_list.
Print Assumptions C81_text_determines.
Print Assumptions C81_listing_refuted.
Print Assumptions C81_audit_refuted.
Print Assumptions C82_helper_fields.
