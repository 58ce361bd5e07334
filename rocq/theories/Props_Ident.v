(** * Properties C01-C04 and C58: identifiers. *)
From Verif Require Import Base BaseFacts Hex HexFacts Ident BuildId IdentFacts SpecIdent.

(** ** C01 *)
Theorem C01_print_parse_roundtrip : forall i, id_from_str (id_to_string i) = Ok i.
Proof. exact id_from_to_string. Qed.

Theorem C01_text_is_64_lowercase_hex : forall i,
  length (id_to_string i) = 64 /\
  forall c, In c (id_to_string i) ->
    (48 <= u8v c <= 57)%N \/ (97 <= u8v c <= 102)%N.
Proof.
  intros i. split; [apply id_to_string_length|]. intros c Hc.
  pose proof (hex_encode_lower (id_to_bytes i)) as H.
  eapply forallb_forall in H; [|exact Hc]. unfold is_lower_hex in H.
  apply orb_true_iff in H as [H|H]; apply andb_true_iff in H as [H1 H2];
    apply N.leb_le in H1, H2; auto.
Qed.

Theorem C01_text_determines_identifier : forall a b, id_to_string a = id_to_string b -> a = b.
Proof. exact id_to_string_inj. Qed.

Theorem C01_parse_print_is_lowercase : forall s i,
  id_from_str s = Ok i -> id_to_string i = map lower s.
Proof. exact id_from_str_ok. Qed.

Theorem C01_parse_case_insensitive : forall s, id_from_str (map lower s) = id_from_str s.
Proof. intros s. rewrite !id_from_str_spec, hex_decode_lower. reflexivity. Qed.

(** a mixed-case string parses and its printed form differs from it *)
Example C01_example :
  let i := mk_id (arr_rep xab 15) TMix (arr_rep x0f 16) in
  let s := map (fun c => if Byte.eqb c x61 then x41 else c) (id_to_string i) in
  id_from_str s = Ok i /\ s <> id_to_string i.
Proof.
  cbv zeta. split; [vm_compute; reflexivity|].
  intros H. apply (f_equal (fun l => nth_error l 0)) in H. vm_compute in H. discriminate.
Qed.

(** ** C02 *)
Theorem C02_order_is_byte_order : forall a b,
  id_cmp a b = lex (id_to_bytes a) (id_to_bytes b).
Proof. exact id_cmp_bytes. Qed.
Theorem C02_order_is_string_order : forall a b,
  id_cmp a b = lex (id_to_string a) (id_to_string b).
Proof. exact id_cmp_string. Qed.
Theorem C02_partial_cmp : forall a b, id_partial_cmp a b = Some (id_cmp a b).
Proof. exact id_partial_cmp_spec. Qed.
Theorem C02_total_order : forall a b c,
  (id_cmp a b = Eq <-> a = b) /\
  (id_eqb a b = true <-> a = b) /\
  id_cmp b a = CompOpp (id_cmp a b) /\
  (id_cmp a b = Lt -> id_cmp b c = Lt -> id_cmp a c = Lt).
Proof.
  intros a b c. split; [apply id_cmp_eq|]. split; [apply id_eqb_eq|].
  rewrite !id_cmp_bytes. split; [apply lex_opp|apply lex_lt_trans].
Qed.
(** the transaction type dominates the unique part, the election dominates both *)
Example C02_example :
  id_cmp (mk_id (arr_rep x01 15) TVote (arr_rep xff 16)) (mk_id (arr_rep x01 15) TMix (arr_rep x00 16)) = Lt /\
  id_cmp (mk_id (arr_rep x02 15) TElection (arr_rep x00 16)) (mk_id (arr_rep x01 15) TMix (arr_rep xff 16)) = Gt.
Proof. split; vm_compute; reflexivity. Qed.

(** ** C03: refuted; exact set of crashing inputs *)
(** The full statement is [forall s, is_panic (id_from_str s) = false]. *)
Theorem C03_parse_never_panics_refuted : exists s,
  id_from_str s = Panic PUnwrap /\ length s = 32 /\ forallb is_hex_char s = true.
Proof. exists (repeat x30 32). vm_compute. auto. Qed.

Theorem C03_bad_type_panics_refuted : exists s,
  id_from_str s = Panic PUnwrap /\ length s = 64 /\ forallb is_hex_char s = true.
Proof. exists (repeat x30 64). vm_compute. auto. Qed.

(** What does hold, for every string: exactly when it parses, when it is refused with which
    error, and when it crashes.  "The 16th byte" is the value of characters 30 and 31. *)
Definition hex16th (s : bytes) : option byte :=
  match hex_decode (firstn 2 (skipn 30 s)) with Some [b] => Some b | _ => None end.

Lemma hex_decode_app a b ra rb :
  hex_decode a = Some ra -> hex_decode b = Some rb -> hex_decode (a ++ b) = Some (ra ++ rb).
Proof.
  revert ra. induction a as [|x|x y a IH] using pair_ind; intros ra Ha Hb.
  - injection Ha as <-. exact Hb.
  - discriminate.
  - cbn [hex_decode app] in *. destruct (hex_val x), (hex_val y); try discriminate.
    destruct (hex_decode a) as [r|]; [|discriminate]. injection Ha as <-.
    rewrite (IH r eq_refl Hb). reflexivity.
Qed.
Lemma hex_decode_firstn s b n : hex_decode s = Some b -> hex_decode (firstn (2 * n) s) = Some (firstn n b).
Proof.
  revert b s. induction n as [|n IH]; intros b s H; [reflexivity|].
  destruct s as [|x [|y s]]; cbn [hex_decode] in H; try discriminate.
  - injection H as <-. reflexivity.
  - replace (2 * S n) with (S (S (2 * n))) by lia. cbn [firstn hex_decode].
    destruct (hex_val x), (hex_val y); try discriminate.
    destruct (hex_decode s) as [r|] eqn:E; [|discriminate].
    injection H as <-. rewrite (IH r s E). reflexivity.
Qed.
Lemma hex_decode_skipn s b n : hex_decode s = Some b -> hex_decode (skipn (2 * n) s) = Some (skipn n b).
Proof.
  revert b s. induction n as [|n IH]; intros b s H; [exact H|].
  destruct s as [|x [|y s]]; cbn [hex_decode] in H; try discriminate.
  - injection H as <-. reflexivity.
  - replace (2 * S n) with (S (S (2 * n))) by lia. cbn [skipn hex_decode].
    destruct (hex_val x), (hex_val y); try discriminate.
    destruct (hex_decode s) as [r|] eqn:E; [|discriminate].
    injection H as <-. apply IH, E.
Qed.

Lemma hex16th_spec s b : hex_decode s = Some b -> length s = 64 -> 
  hex16th s = nth_error b 15.
Proof.
  intros H Hl. unfold hex16th.
  change 30 with (2 * 15). pose proof (hex_decode_skipn _ _ 15 H) as H1.
  change (firstn 2) with (@firstn byte (2 * 1)). rewrite (hex_decode_firstn _ _ 1 H1).
  apply hex_decode_length in H. assert (length b = 32) by lia.
  destruct (split_15_16 _ H0) as (e & x & u & Hb & He & Hu & Hf & Hn & Hs).
  rewrite Hn. rewrite Hb, skipn_app, skipn_all2 by lia.
  replace (15 - length e) with 0 by lia. reflexivity.
Qed.

Theorem C03_parse_outcome_partial : forall s,
  (* accepted exactly: 64 hex digits naming a known type *)
  ((exists i, id_from_str s = Ok i) <->
     length s = 64 /\ forallb is_hex_char s = true /\
     exists t, hex16th s = Some (tt_u8 t)) /\
  (* crashes exactly: 32 hex digits, or 64 hex digits naming an unknown type *)
  ((exists p, id_from_str s = Panic p) <->
     forallb is_hex_char s = true /\
     (length s = 32 \/ (length s = 64 /\ forall t, hex16th s <> Some (tt_u8 t)))).
Proof.
  intros s. rewrite id_from_str_spec.
  destruct (hex_decode s) as [b|] eqn:D.
  2: { assert (N : ~ (forallb is_hex_char s = true /\ Nat.even (length s) = true)).
       { rewrite <- hex_decode_some, D. intros (b & H); discriminate. }
       split; split.
       - intros (i & H); discriminate.
       - intros (H1 & H2 & _). exfalso. apply N. rewrite H1. auto.
       - intros (p & H); discriminate.
       - intros (H2 & [H1|[H1 _]]); exfalso; apply N; rewrite H1; auto. }
  assert (HX : forallb is_hex_char s = true) by (apply hex_decode_some; eauto).
  pose proof (hex_decode_length _ _ D) as Hl.
  destruct (Nat.eqb_spec (length b) 32) as [H|H].
  - rewrite (hex16th_spec _ _ D) by lia.
    destruct (split_15_16 _ H) as (e & x & u & Hb & He & Hu & H1 & H2 & H3).
    rewrite H1, H2, H3.
    destruct (arr_of_ex _ _ He) as (ea & -> & _). destruct (arr_of_ex _ _ Hu) as (ua & -> & _).
    destruct (tt_of_u8 x) as [t|] eqn:T.
    + apply tt_of_u8_some in T. subst x. split; split; eauto.
      * intros _. repeat split; eauto; lia.
      * intros (p & Hp); discriminate.
      * intros (_ & [Hs|[Hs N]]); [lia|]. exfalso. apply (N t). reflexivity.
    + split; split; eauto.
      * intros (i & Hi); discriminate.
      * intros (_ & _ & t & Ht). injection Ht as ->. rewrite tt_of_to in T. discriminate.
      * intros _. split; [assumption|]. right. split; [lia|]. intros t Ht. injection Ht as ->.
        rewrite tt_of_to in T. discriminate.
  - destruct (Nat.eqb_spec (length b) 16) as [H'|H']; split; split; eauto.
    + intros (i & Hi); discriminate.
    + intros (Hs & _); lia.
    + intros _. split; [assumption|]. left. lia.
    + intros (i & Hi); discriminate.
    + intros (Hs & _); lia.
    + intros (p & Hp); discriminate.
    + intros (_ & [Hs|[Hs _]]); lia.
Qed.

(** both sides of each equivalence occur *)
Example C03_example :
  (exists i, id_from_str (id_to_string (mk_id (arr_rep x01 15) TVote (arr_rep x00 16))) = Ok i) /\
  id_from_str [x7a] = Err IdentifierBadHex /\
  id_from_str [x30; x30] = Err IdentifierBadLen.
Proof. split; [eexists; apply id_from_to_string|split; vm_compute; reflexivity]. Qed.

(** ** C04 *)
Lemma arr_slice_l {n} (a : arr n) off len h : arr_l (arr_slice a off len h) = firstn len (skipn off (arr_l a)).
Proof. reflexivity. Qed.
Lemma vote_id_eq e e' k k' :
  vote_build_id (election_build_id e) k = vote_build_id (election_build_id e') k' <->
  e = e' /\ key_prefix_eq 16 k k'.
Proof.
  unfold vote_build_id, key_prefix_eq. rewrite !id_new_some. cbn [id_election election_build_id].
  split.
  - intros H. injection H as -> H. split; [reflexivity|exact H].
  - intros [-> H]. f_equal. apply arr_ext. exact H.
Qed.
Lemma slot_eq c c' u u' el el' t t' :
  slot_unique (up_id el c u) c (up_row u) t = slot_unique (up_id el' c' u') c' (up_row u') t' <->
  c = c' /\ same_upstream u u' /\ t = t'.
Proof.
  split.
  - intros H. destruct u as [k|b m s r].
    + apply slot_unique_inj_vote in H as (-> & Ht & -> & Hk); [|reflexivity].
      destruct u' as [k'|b' m' s' r']; [|discriminate]. repeat split.
      unfold same_upstream, key_prefix_eq.
      cbn [up_id vote_build_id id_unique id_new] in Hk. rewrite !arr_slice_l in Hk.
      cbn [skipn] in Hk. rewrite !firstn_firstn in Hk. exact Hk.
    + apply slot_unique_inj_mix in H as (-> & Ht & Hr & -> & Hk); [|reflexivity].
      destruct u' as [k'|b' m' s' r']; [discriminate|].
      cbn [up_id up_row mix_build_id id_unique id_new] in Hk, Hr. subst r'.
      change (arr_l (to_be b) ++ [m; s; x00; x00] = arr_l (to_be b') ++ [m'; s'; x00; x00]) in Hk.
      apply app_eq_len in Hk; [|rewrite !arr_len; reflexivity]. destruct Hk as [Hb Hk].
      injection Hk as -> ->.
      apply arr_ext, to_be_inj in Hb. subst b'. repeat split.
  - intros (-> & Hu & ->). unfold slot_unique.
    destruct u as [k|b m s r], u' as [k'|b' m' s' r']; cbn [same_upstream] in Hu; try contradiction.
    + cbn [up_id vote_build_id id_new id_type id_unique]. f_equal. f_equal. f_equal.
      apply arr_ext. rewrite !arr_slice_l. cbn [skipn]. rewrite !firstn_firstn. exact Hu.
    + destruct Hu as (-> & -> & -> & ->). reflexivity.
Qed.

(** Exactly when two objects get the same identifier. *)
Lemma object_id_eq e e' o o' :
  object_id e o = object_id e' o' <-> e = e' /\ same_object o o'.
Proof.
  destruct o, o'; cbn [object_id same_object];
    try (split; [intros H; apply (f_equal id_type) in H; discriminate
                |intros [_ H]; first [discriminate|contradiction]]).
  - split; [intros H; injection H as ->; auto|intros [-> _]; reflexivity].
  - split; [intros H; injection H as -> ->; auto|intros [-> H]; injection H as ->; reflexivity].
  - split; [intros H; injection H as -> ->; auto|intros [-> H]; injection H as ->; reflexivity].
  - split; [intros H; injection H as -> ->; auto|intros [-> H]; injection H as ->; reflexivity].
  - split; [intros H; injection H as ->; auto|intros [-> _]; reflexivity].
  - split; [intros H; injection H as ->; auto|intros [-> _]; reflexivity].
  - apply vote_id_eq.
  - split.
    + intros H. unfold mix_build_id in H. rewrite !id_new_some in H.
      assert (He := f_equal id_election H). assert (Hu := f_equal id_unique H). cbn in He.
      cbn [id_unique] in Hu. apply mix_unique_inj in Hu as (-> & -> & -> & ->). auto.
    + intros [-> H]. injection H as -> -> -> ->. reflexivity.
  - unfold partial_build_id. rewrite !id_new_some. split.
    + intros H. assert (He := f_equal id_election H). assert (Hu := f_equal id_unique H). cbn in He.
      cbn [id_unique] in Hu. apply slot_eq in Hu. auto.
    + intros [-> H]. f_equal. apply slot_eq. exact H.
  - unfold decryption_build_id. rewrite !id_new_some. split.
    + intros H. assert (He := f_equal id_election H). assert (Hu := f_equal id_unique H). cbn in He.
      cbn [id_unique] in Hu. apply slot_eq in Hu. tauto.
    + intros [-> H]. f_equal. apply slot_eq. tauto.
Qed.

(** Full statement: [object_id e o = object_id e' o' -> e = e' /\ o = o'].
    Refuted: two different voters' decryption slots can have the same identifier. *)
Definition key_a : arr 32 := @arr_app 10 22 (arr_rep x01 10) (arr_rep x02 22).
Definition key_b : arr 32 := @arr_app 10 22 (arr_rep x01 10) (arr_rep x03 22).
Theorem C04_ids_collision_free_refuted : exists e c t k k',
  object_id e (OVote k) <> object_id e (OVote k') /\
  object_id e (OPartial c (UpVote k) t) = object_id e (OPartial c (UpVote k') t) /\
  object_id e (ODecryption c (UpVote k)) = object_id e (ODecryption c (UpVote k')).
Proof.
  exists (arr_rep x07 15), (u_of 4 0), x01, key_a, key_b. split; [|split].
  - intros H. apply object_id_eq in H as [_ H]. vm_compute in H. discriminate.
  - apply object_id_eq. vm_compute. auto.
  - apply object_id_eq. vm_compute. auto.
Qed.

(** What holds: identifiers determine election, type and all naming parameters, voters being
    distinguished by 16 bytes of their key in vote identifiers and by 10 in decryption slots. *)
Theorem C04_ids_determine_object_partial : forall e e' o o',
  object_id e o = object_id e' o' <-> e = e' /\ same_object o o'.
Proof. exact object_id_eq. Qed.
Example C04_example :
  object_id (arr_rep x07 15) (OMix (u_of 4 1) (u_of 4 0) x00 x01) <>
  object_id (arr_rep x07 15) (OMix (u_of 4 0) (u_of 4 1) x00 x01).
Proof. intros H. apply object_id_eq in H as [_ H]. vm_compute in H. discriminate. Qed.

(** Where the parts are found in the text of an identifier. *)
Lemma be1 b : be_val [b] = u8v b.
Proof. change (u8v b * 1 + 0 = u8v b)%N. lia. Qed.
Lemma to_be4 (c : u32) : exists w x y z, arr_l (to_be c) = [w; x; y; z] /\ be_val [w; x; y; z] = uv c.
Proof.
  pose proof (arr_len (to_be c)) as L. pose proof (be_val_to_be c) as V.
  destruct (arr_l (to_be c)) as [|w [|x [|y [|z [|]]]]]; try discriminate L. exists w, x, y, z. auto.
Qed.
Lemma to_be2 (c : u16) : exists w x, arr_l (to_be c) = [w; x] /\ be_val [w; x] = uv c.
Proof.
  pose proof (arr_len (to_be c)) as L. pose proof (be_val_to_be c) as V.
  destruct (arr_l (to_be c)) as [|w [|x [|]]]; try discriminate L. exists w, x. auto.
Qed.
Lemma after_election e t u off len : firstn len (skipn (15 + off) (id_to_bytes (mk_id e t u))) = firstn len (skipn off (tt_u8 t :: arr_l u)).
Proof.
  unfold id_to_bytes. cbn [id_election id_type id_unique]. rewrite skipn_app, (skipn_all2 (arr_l e)) by (rewrite arr_len; lia).
  rewrite arr_len. cbn [app]. f_equal. f_equal. lia.
Qed.
Lemma slot_fields u c t e' : exists w x y z rest, arr_l (slot_unique (up_id e' c u) c (up_row u) t) = w :: x :: y :: z :: rest ++ [t]
  /\ be_val [w; x; y; z] = uv c /\ length rest = 11 /\ has_layout (repeat x00 20 ++ rest) (slot_layout u).
Proof.
  destruct (to_be4 c) as (w & x & y & z & Ec & Vc). exists w, x, y, z.
  destruct u as [k|b m s r].
  - exists (x06 :: firstn 10 (arr_l k)). unfold slot_unique. cbn [up_id vote_build_id id_new id_type]. unfold arr_app. cbn [arr_l arr1 id_unique tt_u8].
    rewrite Ec. pose proof (arr_len k) as L. rewrite arr_slice_l. cbn [arr_l]. rewrite ?arr_slice_l. cbn [skipn]. replace (firstn 10 (arr_l (id_unique (vote_build_id e' k)))) with (firstn 10 (arr_l k))
      by (change (firstn 10 (arr_l k) = firstn 10 (firstn 16 (arr_l k))); rewrite firstn_firstn; reflexivity).
    split; [reflexivity|]. split; [exact Vc|]. split; [cbn [length]; rewrite firstn_length, L; reflexivity|].
    unfold has_layout. cbn [slot_layout]. constructor; [reflexivity|]. constructor; [|constructor]. cbn [fst snd repeat app skipn].
    rewrite firstn_firstn. reflexivity.
  - destruct (to_be4 b) as (b1 & b2 & b3 & b4 & Eb & Vb). destruct (to_be2 r) as (r1 & r2 & Er & Vr).
    exists [x08; b1; b2; b3; b4; m; s; x00; x00; r1; r2]. unfold slot_unique. cbn [up_id mix_build_id id_new id_type up_row]. unfold arr_app.
    cbn [arr_l arr1 id_unique tt_u8 mix_unique]. rewrite arr_slice_l.
    assert (Eu : arr_l (mix_unique c b m s) = [w; x; y; z; b1; b2; b3; b4; m; s; x00; x00; x00; x00; x00; x00])
      by (unfold mix_unique, arr_app; cbn [arr_l]; rewrite Ec, Eb; reflexivity).
    change (arr_l (id_unique (mix_build_id e' c b m s))) with (arr_l (mix_unique c b m s)). rewrite Eu, Ec, Er.
    split; [reflexivity|]. split; [exact Vc|]. split; [reflexivity|].
    unfold has_layout. cbn [slot_layout]. repeat (constructor; [cbn [fst snd repeat app skipn firstn]; rewrite ?be1; first [reflexivity|assumption]|]). constructor.
Qed.
Lemma slot_has B c1 c2 c3 c4 rest t (c : u32) u :
  (forall off len, firstn len (skipn (16 + off) B) = firstn len (skipn off (c1 :: c2 :: c3 :: c4 :: rest ++ [t]))) ->
  be_val [c1; c2; c3; c4] = uv c -> length rest = 11 -> has_layout (repeat x00 20 ++ rest) (slot_layout u) ->
  has_layout B ((16, 4, uv c) :: slot_layout u ++ [(31, 1, u8v t)]).
Proof.
  intros Sk Vc Lr Fr. constructor; [|apply Forall_app; split].
  - cbn [fst snd]. change 16 with (16 + 0). rewrite Sk. exact Vc.
  - assert (Bd : Forall (fun f : nat * nat * N => 20 <= fst (fst f) /\ fst (fst f) + snd (fst f) <= 31) (slot_layout u))
      by (destruct u; repeat (constructor; [cbn [fst snd]; lia|]); constructor).
    unfold has_layout in Fr. rewrite Forall_forall in Fr, Bd |- *. intros [[off len] v] I. specialize (Fr _ I). specialize (Bd _ I). cbn [fst snd] in *.
    rewrite <- Fr. f_equal. transitivity (firstn len (skipn (off - 20) rest)).
    + replace off with (16 + (4 + (off - 20))) at 1 by lia. rewrite Sk. change (skipn (4 + (off - 20)) (c1 :: c2 :: c3 :: c4 :: rest ++ [t]))
        with (skipn (off - 20) (rest ++ [t])). rewrite skipn_app, firstn_app, skipn_length.
      replace (len - (length rest - (off - 20))) with 0 by lia. rewrite firstn_O, app_nil_r. reflexivity.
    + f_equal. rewrite (skipn_app off), (skipn_all2 (repeat x00 20)) by (rewrite repeat_length; lia). rewrite repeat_length. reflexivity.
  - constructor; [|constructor]. cbn [fst snd]. change 31 with (16 + 15). rewrite Sk. change (skipn 15 (c1 :: c2 :: c3 :: c4 :: rest ++ [t])) with (skipn 11 (rest ++ [t])).
    rewrite skipn_app, (skipn_all2 rest) by lia. rewrite Lr. apply be1.
Qed.
Theorem C04_layout : forall e o, firstn 15 (id_to_bytes (object_id e o)) = arr_l e
  /\ length (id_to_bytes (object_id e o)) = 32 /\ has_layout (id_to_bytes (object_id e o)) (layout o).
Proof.
  intros e o.
  assert (He : id_election (object_id e o) = e) by (destruct o; reflexivity).
  assert (Ht : u8v (tt_u8 (id_type (object_id e o))) = kind_byte o) by (destruct o; reflexivity).
  destruct (object_id e o) as [e' t u] eqn:E. cbn [id_election id_type] in He, Ht. subst e'.
  split; [|split].
  - unfold id_to_bytes. cbn [id_election]. rewrite firstn_app, arr_len, Nat.sub_diag, firstn_O, app_nil_r. apply firstn_all2. rewrite arr_len. lia.
  - unfold id_to_bytes. rewrite app_length. cbn [length]. rewrite !arr_len. reflexivity.
  - apply (f_equal (fun i => arr_l (id_unique i))) in E. cbn [id_unique] in E.
    unfold layout. constructor.
    { cbn [fst snd]. change 15 with (15 + 0). rewrite after_election. cbn [skipn firstn]. rewrite be1. exact Ht. }
    assert (Sk : forall off len, firstn len (skipn (16 + off) (id_to_bytes (mk_id e t u))) = firstn len (skipn off (arr_l u))).
    { intros off len. change (16 + off) with (15 + S off). rewrite after_election. reflexivity. }
    rewrite <- E in Sk. clear E Ht. remember (id_to_bytes (mk_id e t u)) as B eqn:EB. clear EB.
    destruct o as [|tr|tr|tr| | |k|c b m tr|c up tr|c up]; cbn [object_id] in Sk.
    + constructor; [|constructor]. cbn [fst snd]. change 16 with (16 + 0) at 2. rewrite Sk. reflexivity.
    + constructor; [|constructor; [|constructor]]; cbn [fst snd]; [change 16 with (16 + 0)|change 17 with (16 + 1)]; rewrite Sk; [apply be1|reflexivity].
    + constructor; [|constructor; [|constructor]]; cbn [fst snd]; [change 16 with (16 + 0)|change 17 with (16 + 1)]; rewrite Sk; [apply be1|reflexivity].
    + constructor; [|constructor; [|constructor]]; cbn [fst snd]; [change 16 with (16 + 0)|change 17 with (16 + 1)]; rewrite Sk; [apply be1|reflexivity].
    + constructor; [|constructor]. cbn [fst snd]. change 16 with (16 + 0) at 2. rewrite Sk. reflexivity.
    + constructor; [|constructor]. cbn [fst snd]. change 16 with (16 + 0) at 2. rewrite Sk. reflexivity.
    + constructor; [|constructor]. cbn [fst snd]. change 16 with (16 + 0) at 2. rewrite Sk. cbn [vote_build_id id_new id_unique].
      rewrite arr_slice_l. cbn [skipn]. rewrite firstn_firstn. reflexivity.
    + destruct (to_be4 c) as (c1 & c2 & c3 & c4 & Ec & Vc). destruct (to_be4 b) as (b1 & b2 & b3 & b4 & Eb & Vb).
      cbn [mix_build_id id_new id_unique] in Sk. unfold mix_unique, arr_app in Sk. cbn [arr_l] in Sk. rewrite Ec, Eb in Sk.
      constructor; [|constructor; [|constructor; [|constructor; [|constructor; [|constructor]]]]]; cbn [fst snd].
      * change 16 with (16 + 0). rewrite Sk. exact Vc.
      * change 20 with (16 + 4). rewrite Sk. exact Vb.
      * change 24 with (16 + 8). rewrite Sk. apply be1.
      * change 25 with (16 + 9). rewrite Sk. apply be1.
      * change 26 with (16 + 10). rewrite Sk. reflexivity.
    + destruct (slot_fields up c tr (election_build_id e)) as (c1 & c2 & c3 & c4 & rest & Eu & Vc & Lr & Fr).
      cbn [partial_build_id id_new id_unique] in Sk. rewrite Eu in Sk. apply (slot_has B c1 c2 c3 c4 rest tr); assumption.
    + destruct (slot_fields up c x00 (election_build_id e)) as (c1 & c2 & c3 & c4 & rest & Eu & Vc & Lr & Fr).
      cbn [decryption_build_id id_new id_unique] in Sk. rewrite Eu in Sk. apply (slot_has B c1 c2 c3 c4 rest x00); assumption.
Qed.

(** ** C58 *)
Theorem C58_shuffle_seed_injective : forall c b m t c' b' m' t',
  mix_seed c b m t = mix_seed c' b' m' t' -> c = c' /\ b = b' /\ m = m' /\ t = t'.
Proof. exact mix_seed_inj. Qed.
Theorem C58_seed_layout : forall c b m t, length (mix_seed c b m t) = 10 /\ nth 0 (mix_seed c b m t) x00 = t /\ nth 1 (mix_seed c b m t) x00 = m
  /\ be_val (firstn 4 (skipn 2 (mix_seed c b m t))) = uv c /\ be_val (skipn 6 (mix_seed c b m t)) = uv b.
Proof.
  intros c b m t. destruct (to_be4 c) as (c1 & c2 & c3 & c4 & Ec & Vc). destruct (to_be4 b) as (b1 & b2 & b3 & b4 & Eb & Vb).
  unfold mix_seed. rewrite Ec, Eb. repeat split; assumption.
Qed.
Example C58_example : mix_seed (u_of 4 1) (u_of 4 2) x00 x01 <> mix_seed (u_of 4 2) (u_of 4 1) x00 x01.
Proof. intros H. apply mix_seed_inj in H as (H & _). apply (f_equal uv) in H. discriminate. Qed.

Print Assumptions C01_print_parse_roundtrip.
Print Assumptions C02_total_order.
Print Assumptions C03_parse_outcome_partial.
Print Assumptions C04_ids_determine_object_partial.
Print Assumptions C04_layout.
Print Assumptions C58_shuffle_seed_injective.
Print Assumptions C58_seed_layout.
