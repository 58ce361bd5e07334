(** * SerdeFacts: the (de)serialisers are inverse to each other. *)
From Verif Require Import Base BaseFacts Hex HexFacts Utf8 Cbor CborFacts Ident IdentFacts Crypto Types Value Serde.
From Verif Require Import ValueFacts.
From Verif Require Export MapFacts.
From Coq Require Import Strings.Ascii Strings.String.
Open Scope list_scope.

Lemma map_res_map {E A B X} (f : A -> res E B) (s : X -> A) (n : X -> B) l :
  (forall x, In x l -> f (s x) = Ok (n x)) -> map_res f (map s l) = Ok (map n l).
Proof.
  induction l as [|x l IH]; intros H; [reflexivity|].
  cbn [map map_res]. rewrite H by (left; reflexivity). cbn [bind].
  rewrite IH by (intros; apply H; right; assumption). reflexivity.
Qed.
Lemma map_res_map_id {E A B} (f : A -> res E B) (s : B -> A) l :
  (forall x, In x l -> f (s x) = Ok x) -> map_res f (map s l) = Ok l.
Proof.
  intros H. rewrite (map_res_map f s (fun x => x)) by exact H. rewrite map_id. reflexivity.
Qed.

(** ** leaves *)
Lemma u_of_uv k (n : uN k) : u_of k (uv n) = n.
Proof. apply u_ext. cbn [uv u_of]. apply N.mod_small, uv_lt. Qed.
Lemma uv_u_of k n : (n < pow256 k)%N -> uv (u_of k n) = n.
Proof. intros H. cbn [uv u_of]. apply N.mod_small, H. Qed.
Lemma pow256_mono j k : j <= k -> (pow256 j <= pow256 k)%N.
Proof. intros H. unfold pow256. apply N.pow_le_mono_r; lia. Qed.

Lemma de_ser_u k (n : uN k) : k <= 8 -> de_u k (ser_u n) = Ok n.
Proof.
  intros H. unfold de_u, ser_u. pose proof (uv_lt n) as L. pose proof (pow256_mono k 8 H) as M.
  rewrite uv_u_of by lia. destruct (N.ltb_spec (uv n) (pow256 k)); [|lia].
  rewrite u_of_uv. reflexivity.
Qed.
Lemma de_ser_u16 (n : u16) : de_u 2 (ser_u n) = Ok n.
Proof. apply de_ser_u. lia. Qed.
Lemma de_ser_u32 (n : u32) : de_u 4 (ser_u n) = Ok n.
Proof. apply de_ser_u. lia. Qed.
Lemma de_ser_u64 (n : u64) : de_u 8 (ser_u n) = Ok n.
Proof. apply de_ser_u. lia. Qed.
Lemma de_ser_u8 b : de_u8 (ser_u8 b) = Ok b.
Proof.
  unfold de_u8, ser_u8. pose proof (u8v_lt b) as L. 
  assert (256 <= pow256 8)%N by (apply (pow256_mono 1 8); lia).
  rewrite uv_u_of by lia. destruct (N.ltb_spec (u8v b) 256); [|lia].
  rewrite u8_of_u8v. reflexivity.
Qed.
Lemma de_ser_id i : de_id (ser_id i) = Ok i.
Proof. unfold de_id, ser_id, hex_text. cbn [sv]. fold (id_to_string i). rewrite id_from_to_string. reflexivity. Qed.
Lemma de_hex_text l : de_hex (hex_text l) = Ok l.
Proof. unfold de_hex, hex_text. cbn [sv]. rewrite hex_decode_encode. reflexivity. Qed.
Lemma de_ser_opt {A} (d : D A) (s : A -> cval) (o : option A) :
  (forall a, d (s a) = Ok a) -> (forall a, s a <> CNull) -> de_opt d (ser_opt s o) = Ok o.
Proof.
  intros H N. destruct o as [a|]; [|reflexivity]. cbn [ser_opt]. unfold de_opt.
  specialize (H a). specialize (N a). destruct (s a); try congruence; rewrite H; reflexivity.
Qed.
Lemma de_ser_list {A} (d : D A) (s : A -> cval) (l : list A) :
  (forall a, In a l -> d (s a) = Ok a) -> de_list d (ser_list s l) = Ok l.
Proof. intros H. apply map_res_map_id, H. Qed.
Lemma de_sub_sv (P : cval -> bool) (a : sub P) : de_sub P (ser_sub a) = Ok a.
Proof. unfold de_sub, ser_sub. rewrite sub_of_sv. reflexivity. Qed.

(** ** insertion-ordered maps *)
Lemma de_imap_ok {K V} (eqb : K -> K -> bool) (dk : D K) (dv : D V) sk s (m : imap eqb V) :
  (forall a b, eqb a b = true <-> a = b) ->
  (forall k, dk (sk k) = Ok k) -> (forall v, dv (s v) = Ok v) ->
  de_imap eqb dk dv (CMap (map (fun '(k, v) => (sk k, s v)) (sv m))) = Ok m.
Proof.
  intros E Hk Hv. unfold de_imap.
  rewrite (map_res_map_id _ (fun '(k, v) => (sk k, s v))).
  - cbn [bind]. rewrite ibuild_nodup by (auto; apply (s_ok m)). rewrite sub_of_sv. reflexivity.
  - intros [k v] _. rewrite Hk. cbn [bind]. rewrite Hv. reflexivity.
Qed.
Lemma de_imap_seq_ok {K V} (eqb : K -> K -> bool) (dk : D K) (dv : D V) sk s (m : imap eqb V) :
  (forall a b, eqb a b = true <-> a = b) ->
  (forall k, dk (sk k) = Ok k) -> (forall v, dv (s v) = Ok v) ->
  de_imap_seq eqb dk dv (CArr (map (fun '(k, v) => CArr [sk k; s v]) (sv m))) = Ok m.
Proof.
  intros E Hk Hv. unfold de_imap_seq.
  rewrite (map_res_map_id _ (fun '(k, v) => CArr [sk k; s v])).
  - cbn [bind]. rewrite ibuild_nodup by (auto; apply (s_ok m)). rewrite sub_of_sv. reflexivity.
  - intros [k v] _. rewrite Hk. cbn [bind]. rewrite Hv. reflexivity.
Qed.
Lemma de_ser_props p : de_props (ser_props p) = Ok p.
Proof. unfold de_props, ser_props. apply (de_imap_ok rs_eqb de_text _ CText ser_value); auto using rs_eqb_eq, de_ser_value. Qed.

(** ** struct fields *)
Lemma lookup_cons k k' v m :
  lookup k ((CText k', v) :: m) = if rs_eqb k k' then v :: lookup k m else lookup k m.
Proof. unfold lookup. cbn [filter key_is fst]. destruct (rs_eqb k k'); reflexivity. Qed.
Lemma lookup_nil k : lookup k [] = [].
Proof. reflexivity. Qed.
Lemma lookup_skip k k' p :
  lookup k (skip_empty k' p) =
  if rs_eqb k k' then match sv p with [] => [] | _ => [ser_props p] end else [].
Proof.
  unfold skip_empty. destruct (sv p).
  - destruct (rs_eqb k k'); reflexivity.
  - rewrite lookup_cons, lookup_nil. reflexivity.
Qed.
Lemma lookup_app k l m : lookup k (l ++ m) = lookup k l ++ lookup k m.
Proof. unfold lookup. rewrite filter_app, map_app. reflexivity. Qed.

Ltac lk1 :=
  match goal with
  | |- context [lookup ?k ?m] =>
      let r := eval lazy [lookup filter map key_is fst snd rs_eqb sv bytes_eqb list_byte_of_string
        string_rect list_ascii_of_string byte_of_ascii Byte.eqb Byte.to_bits Bool.eqb
        Ascii.byte_of_ascii Byte.of_bits andb] in (lookup k m) in
      change (lookup k m) with r
  end.
Ltac keys := rewrite ?lookup_app, ?lookup_skip; repeat lk1;
  repeat match goal with
  | |- context [rs_eqb ?a ?b] =>
      let r := eval vm_compute in (rs_eqb a b) in change (rs_eqb a b) with r; cbv iota
  end.
(** evaluate the next field access *)
Ltac fields := unfold req, dflt; keys; cbn [app].
Ltac struct := unfold de_struct; cbv beta iota; fields.
Ltac step L := rewrite L; cbn [bind].

Lemma dflt_props p :
  match sv p with [] => [] | _ => [ser_props p] end = ([] : list cval) /\ p = no_props \/
  match sv p with [] => [] | _ => [ser_props p] end = [ser_props p].
Proof.
  destruct (sv p) eqn:E; [left|right; reflexivity]. split; [reflexivity|].
  apply sub_ext. rewrite E. reflexivity.
Qed.
Ltac props p := let H := fresh in let E := fresh in
  destruct (dflt_props p) as [[H E]|H]; rewrite ?H;
  [rewrite ?E|rewrite ?de_ser_props]; cbn [bind].

Lemma de_ser_ct t : de_ct (CText (ct_name t)) = Ok t.
Proof. destruct t; vm_compute; reflexivity. Qed.
Lemma de_ser_candidate c : de_candidate (ser_candidate c) = Ok c.
Proof.
  destruct c as [i p]. unfold de_candidate, ser_candidate. struct. cbn [cand_id cand_props de_text bind].
  props p; reflexivity.
Qed.
Lemma de_ser_contest c : de_contest (ser_contest c) = Ok c.
Proof.
  destruct c as [i x t w wi cs p]. unfold de_contest, ser_contest. struct.
  cbn [cont_id cont_index cont_type cont_winners cont_write_in cont_candidates cont_props de_text de_bool].
  step de_ser_u32. step de_ser_ct. step de_ser_u32.
  rewrite de_ser_list by (intros; apply de_ser_candidate). cbn [bind].
  props p; reflexivity.
Qed.

Lemma de_ser_ballot b : de_ballot (ser_ballot b) = Ok b.
Proof.
  destruct b as [i cs p]. unfold de_ballot, ser_ballot. struct.
  cbn [bal_id bal_contests bal_props de_text]. cbn [bind].
  rewrite de_ser_list by (intros; apply de_ser_u32). cbn [bind].
  props p; reflexivity.
Qed.
Lemma de_ser_selection s : de_selection (ser_selection s) = Ok s.
Proof.
  destruct s as [w x t]. unfold de_selection, ser_selection. struct.
  cbn [sel_write_in sel_score sel_text de_bool de_text bind]. step de_ser_u32. reflexivity.
Qed.
Lemma de_ser_mixconfig m : de_mixconfig (ser_mixconfig m) = Ok m.
Proof.
  destruct m as [t b]. unfold de_mixconfig, ser_mixconfig. struct. cbn [mc_timeout mc_batch].
  step de_ser_u64. rewrite de_ser_opt; [reflexivity|apply de_ser_u16|discriminate].
Qed.
Lemma de_ser_uuid u : de_uuid (CBytes (arr_l u)) = Ok u.
Proof. unfold de_uuid. cbn [de_bytes bind]. rewrite arr_of_arr. reflexivity. Qed.

Section Facts.
  Context {C : Crypto}.

  Lemma de_ser_arr n (a : arr n) : de_arr n (CBytes (arr_l a)) = Ok a.
  Proof. unfold de_arr. cbn [de_raw bind]. rewrite arr_of_arr. reflexivity. Qed.
  Lemma de_ser_pk p : de_pk (ser_pk p) = Ok p.
  Proof. unfold de_pk, ser_pk. rewrite de_ser_arr. cbn [bind]. rewrite sub_of_sv. reflexivity. Qed.
  Lemma de_ser_sig s : de_sig (ser_sig s) = Ok s.
  Proof. unfold de_sig, ser_sig. rewrite de_ser_arr. cbn [bind]. rewrite sub_of_sv. reflexivity. Qed.

  (** the trustee helper fields are not serialised *)
  Definition norm_trustee (t : Trustee) : Trustee :=
    mk_trustee (tr_public_key t) (tr_index t) (u_of 8 0) x00.
  Definition norm_election (t : ElectionTx) : ElectionTx :=
    mk_election (el_id t) (el_authority t) (map norm_trustee (el_trustees t)) (el_threshold t)
      (el_authenticators t) (el_auth_threshold t) (el_mix_config t) (el_ballots t) (el_contests t) (el_props t).
  Definition norm_tx (t : Tx) : Tx :=
    match t with XElection e => XElection (norm_election e) | t => t end.
  Definition norm_stx (s : STx) : STx := mk_stx (norm_tx (s_tx s)) (s_sig s).

  Lemma de_ser_trustee t : de_trustee (ser_trustee t) = Ok (norm_trustee t).
  Proof.
    destruct t as [p i n th]. unfold de_trustee, ser_trustee. struct. cbn [tr_public_key tr_index].
    step de_ser_pk. step de_ser_u8. reflexivity.
  Qed.
  Lemma de_ser_keys m : de_imap rs_eqb de_text de_key (ser_keys m) = Ok m.
  Proof.
    apply (de_imap_ok rs_eqb de_text de_key CText (fun v : AuthPublicKey => CBytes (sv v)));
      auto using rs_eqb_eq.
    intros v. unfold de_key. cbn [de_raw bind].
    rewrite sub_of_sv. reflexivity.
  Qed.
  Lemma de_ser_authenticator a : de_authenticator (ser_authenticator a) = Ok a.
  Proof.
    destruct a as [i k]. unfold de_authenticator, ser_authenticator. struct. cbn [au_id au_keys].
    step de_ser_uuid.
    rewrite de_ser_keys. reflexivity.
  Qed.
  Lemma de_ser_authentication a : de_authentication (ser_authentication a) = Ok a.
  Proof.
    destruct a as [i k]. unfold de_authentication, ser_authentication. struct.
    cbn [an_authenticator an_signature]. step de_ser_uuid. step de_hex_text. reflexivity.
  Qed.
  Lemma de_ser_encvote e : de_encvote (ser_encvote e) = Ok e.
  Proof.
    destruct e as [c s]. unfold de_encvote, ser_encvote. struct. cbn [ev_contest ev_selections].
    step de_ser_u32. rewrite de_ser_list by (intros; apply de_sub_sv). reflexivity.
  Qed.
  Lemma de_ser_election t : de_election (ser_election t) = Ok (norm_election t).
  Proof.
    destruct t as [i a ts th aus ath mc bs cs p]. unfold de_election, ser_election. struct.
    cbn [el_id el_authority el_trustees el_threshold el_authenticators el_auth_threshold el_mix_config
         el_ballots el_contests el_props].
    step de_ser_id. step de_ser_pk.
    unfold de_list at 1, ser_list at 1. rewrite (map_res_map _ _ norm_trustee) by (intros; apply de_ser_trustee).
    cbn [bind]. step de_ser_u8.
    rewrite de_ser_list by (intros; apply de_ser_authenticator). cbn [bind]. step de_ser_u8.
    rewrite de_ser_opt by (try discriminate; apply de_ser_mixconfig). cbn [bind].
    rewrite de_ser_list by (intros; apply de_ser_ballot). cbn [bind].
    rewrite de_ser_list by (intros; apply de_ser_contest). cbn [bind].
    rewrite de_ser_props. reflexivity.
  Qed.
  Lemma de_ser_commitment t : de_commitment (ser_commitment t) = Ok t.
  Proof.
    unfold de_commitment, ser_commitment. struct.
    step de_ser_id. step de_ser_id. step de_ser_u8. step de_ser_pk. step de_ser_arr.
    rewrite de_sub_sv. destruct t; reflexivity.
  Qed.
  Lemma de_ser_share t : de_share (ser_share t) = Ok t.
  Proof.
    unfold de_share, ser_share. struct.
    step de_ser_id. step de_ser_id. step de_ser_u8. step de_ser_pk.
    unfold ser_shares. rewrite (de_imap_seq_ok Byte.eqb de_u8 de_raw ser_u8 CBytes);
      auto using byte_eqb_eq, de_ser_u8. destruct t; reflexivity.
  Qed.
  Lemma de_ser_pubkey t : de_pubkey (ser_pubkey t) = Ok t.
  Proof.
    unfold de_pubkey, ser_pubkey. struct.
    step de_ser_id. step de_ser_id. step de_ser_u8. step de_ser_pk.
    rewrite !de_sub_sv. destruct t; reflexivity.
  Qed.
  Lemma de_ser_enckey t : de_enckey (ser_enckey t) = Ok t.
  Proof.
    unfold de_enckey, ser_enckey. struct.
    step de_ser_id. step de_ser_id. step de_ser_pk. rewrite !de_sub_sv. destruct t; reflexivity.
  Qed.
  Lemma de_ser_vote t : de_vote (ser_vote t) = Ok t.
  Proof.
    unfold de_vote, ser_vote. struct.
    step de_ser_id. step de_ser_id. cbn [de_text bind].
    rewrite de_ser_list by (intros; apply de_ser_encvote). cbn [bind]. step de_ser_pk.
    rewrite de_ser_list by (intros; apply de_ser_authentication). destruct t; reflexivity.
  Qed.
  Lemma de_ser_votingend t : de_votingend (ser_votingend t) = Ok t.
  Proof.
    unfold de_votingend, ser_votingend. struct.
    step de_ser_id. step de_ser_id. step de_ser_pk. destruct t; reflexivity.
  Qed.
  Lemma de_ser_mix t : de_mix (ser_mix t) = Ok t.
  Proof.
    unfold de_mix, ser_mix. struct.
    step de_ser_id. step de_ser_id. rewrite de_ser_opt by (try discriminate; apply de_ser_id). cbn [bind].
    step de_ser_u8. step de_ser_pk. step de_ser_u8. step de_ser_u32. step de_ser_u32.
    rewrite de_ser_list by (intros; apply de_ser_id). cbn [bind].
    rewrite de_ser_list by (intros; apply de_ser_list; intros; apply de_sub_sv). cbn [bind].
    rewrite de_sub_sv. destruct t; reflexivity.
  Qed.
  Lemma de_ser_partial t : de_partial (ser_partial t) = Ok t.
  Proof.
    unfold de_partial, ser_partial. struct.
    step de_ser_id. step de_ser_id. step de_ser_id. step de_ser_u16. step de_ser_u32.
    step de_ser_u8. step de_ser_pk.
    rewrite de_ser_list by (intros; apply de_sub_sv). destruct t; reflexivity.
  Qed.
  Lemma de_ser_decryption t : de_decryption (ser_decryption t) = Ok t.
  Proof.
    unfold de_decryption, ser_decryption. struct.
    step de_ser_id. step de_ser_id. step de_ser_id. step de_ser_u16. step de_ser_u32.
    rewrite de_ser_list by (intros; apply de_ser_u8). cbn [bind].
    rewrite de_ser_list by (intros; apply de_ser_selection). destruct t; reflexivity.
  Qed.

  Lemma de_ser_tx t : de_tx (tx_type t) (ser_tx t) = Ok (norm_tx t).
  Proof.
    destruct t; cbn [tx_type ser_tx de_tx norm_tx];
      rewrite ?de_ser_election, ?de_ser_commitment, ?de_ser_share, ?de_ser_pubkey, ?de_ser_enckey,
        ?de_ser_vote, ?de_ser_votingend, ?de_ser_mix, ?de_ser_partial, ?de_ser_decryption; reflexivity.
  Qed.
  Lemma de_ser_tag t : de_tag (CText (tag_name t)) = Ok t.
  Proof. destruct t; vm_compute; reflexivity. Qed.

  Lemma de_ser_stx s : de_stx (ser_stx s) = Ok (norm_stx s).
  Proof.
    unfold de_stx, ser_stx. struct. rewrite de_ser_tag. cbn [bind].
    unfold s_type. rewrite de_ser_tx. cbn [bind]. rewrite de_ser_sig. reflexivity.
  Qed.

  Lemma ser_norm t : ser_tx (norm_tx t) = ser_tx t.
  Proof.
    destruct t as [e| | | | | | | | |]; try reflexivity. cbn [norm_tx ser_tx].
    unfold ser_election, ser_list. cbn [norm_election el_id el_authority el_trustees el_threshold
      el_authenticators el_auth_threshold el_mix_config el_ballots el_contests el_props].
    rewrite map_map. reflexivity.
  Qed.

  (** the first keys of the serialised forms tell most types apart; the rest by the number of fields *)
  Definition keys_of (v : cval) : list (option bytes) :=
    match v with CMap m => map (fun p => match fst p with CText s => Some (sv s) | _ => None end) m | _ => [] end.
  Lemma ser_tx_keys t u : keys_of (ser_tx t) = keys_of (ser_tx u) -> tx_type t = tx_type u.
  Proof. destruct t, u; intros H; try reflexivity; vm_compute in H; congruence. Qed.

  Lemma ser_tx_inj t u : ser_tx t = ser_tx u -> norm_tx t = norm_tx u.
  Proof.
    intros H. assert (T : tx_type t = tx_type u) by (apply ser_tx_keys; rewrite H; reflexivity).
    pose proof (de_ser_tx t) as A. rewrite T, H, de_ser_tx in A. congruence.
  Qed.

  Lemma tx_bytes_inj t u :
    cwf (ser_tx t) = true -> cwf (ser_tx u) = true ->
    tx_bytes t = tx_bytes u -> norm_tx t = norm_tx u.
  Proof. intros Ht Hu H. apply ser_tx_inj, cenc_inj; assumption. Qed.

  Lemma stx_roundtrip s :
    cwf (ser_stx s) = true -> cdepth (ser_stx s) <= max_depth ->
    stx_from_bytes (stx_bytes s) = Ok (norm_stx s).
  Proof.
    intros H D. unfold stx_from_bytes, stx_bytes. rewrite cbor_roundtrip by assumption.
    apply de_ser_stx.
  Qed.
End Facts.

From Verif Require Import SpecSerde.
Section Agree.
  Context {C : Crypto}.
  Lemma norm_agree t u : norm_tx t = norm_tx u -> content_agree t u.
  Proof.
    destruct t as [a| | | | | | | | |], u as [b| | | | | | | | |]; cbn [norm_tx content_agree];
      intros H; try discriminate; try exact H.
    injection H as H1 H2 H3 H4 H5 H6 H7 H8 H9 H10. repeat split; auto. clear -H3.
    revert H3. generalize (el_trustees b). induction (el_trustees a) as [|x l IH]; intros [|y m] H; try discriminate.
    - constructor.
    - cbn [map] in H. injection H as Hp Hi Hl. constructor; [split; assumption|auto].
  Qed.
  Lemma agree_norm t u : content_agree t u -> norm_tx t = norm_tx u.
  Proof.
    destruct t as [a| | | | | | | | |], u as [b| | | | | | | | |]; cbn [norm_tx content_agree];
      intros H; try congruence.
    destruct H as (H1 & H2 & H3 & H4 & H5 & H6 & H7 & H8 & H9 & H10).
    f_equal. unfold norm_election. f_equal; auto.
    clear -H3. induction H3 as [|x y l m [Hp Hi]]; [reflexivity|]. cbn [map].
    unfold norm_trustee at 1 3. rewrite Hp, Hi. f_equal. assumption.
  Qed.
  Lemma norm_plain t : plain (norm_tx t).
  Proof.
    destruct t; cbn; auto. induction (el_trustees t); constructor; auto.
    split; reflexivity.
  Qed.
  Lemma norm_plain_id t : plain t -> norm_tx t = t.
  Proof.
    destruct t as [e| | | | | | | | |]; cbn [plain norm_tx]; auto. intros H. f_equal.
    destruct e as [i a ts th aus ath mc bs cs p]. unfold norm_election. cbn in *. f_equal.
    induction H as [|x l [Hn Ht] _ IH]; [reflexivity|]. cbn [map]. f_equal; [|exact IH].
    destruct x as [k ix n t]. cbn in *. unfold norm_trustee. cbn. subst t.
    f_equal. apply u_ext. rewrite Hn. reflexivity.
  Qed.
  Lemma norm_content t : content_agree t (norm_tx t).
  Proof.
    apply norm_agree. symmetry. apply norm_plain_id, norm_plain.
  Qed.
End Agree.
