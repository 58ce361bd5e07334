(** * C89: keys, trustees and authenticators made by the commands. *)
From Verif Require Import Base BaseFacts Hex HexFacts Utf8 Cbor Ident BuildId IdentFacts Crypto Types Serde SerdeFacts Store SpecStore StoreFacts Prost
  Validate ValidateFacts SpecValid ValidFacts ValidFacts2 ValidFacts3 SpecHist HistFacts SpecSerde Json JsonFacts JsonTx SpecJson SpecWire WireFacts SpecDoc DocFacts
  Trustee Tasks SpecTasks TasksFacts Authn Cli Props_Vote Props_Cli Setup SpecSetup Toy Scene ToyT.
From Coq Require Strings.String.
Import String.StringSyntax.
Open Scope list_scope.

Section Props.
  Context {C : Crypto} {TC : TCrypto} {SB : SecretBytes}.

  Lemma hex_string b : exists k : rstring, sv k = hex_encode b.
  Proof. exists (mk_sub (hex_encode b) (norm_true (hex_utf8 b))). reflexivity. Qed.
  Lemma hex_small b : spells (hex_encode b) b /\ no_capital (hex_encode b).
  Proof. apply (hex_canon (mk_sub (hex_encode b) (norm_true (hex_utf8 b)))). reflexivity. Qed.
  Lemma chosen_iff arg env k : given arg env = Some k <-> chosen arg env k.
  Proof.
    unfold given, chosen. destruct arg as [a|]; split; try (intros H; auto; fail).
    - intros [H|[H _]]; [exact H|discriminate].
    - intros [H|[_ H]]; [discriminate|exact H].
  Qed.

  (** the client runs with a secret key exactly when the text given spells it; any other text ends it *)
  Theorem C89_client_key : key_bytes -> forall arg env,
    (forall sk, client_key arg env = Ok (Some sk) <-> exists k, chosen arg env k /\ spells (sv k) (sk_bytes sk))
    /\ (client_key arg env = Ok None <-> arg = None /\ env = None)
    /\ (client_key arg env = Err BadHex <-> exists k, chosen arg env k /\ forall b, ~ spells (sv k) b)
    /\ (client_key arg env = Err BadKey <-> exists k b, chosen arg env k /\ spells (sv k) b /\ List.length b <> 32)
    /\ forall p, client_key arg env <> Panic p.
  Proof.
    intros Kb arg env. unfold client_key.
    assert (Fn : forall k k', chosen arg env k -> given arg env = Some k' -> k = k').
    { intros k k' A B. apply chosen_iff in A. congruence. }
    destruct (given arg env) as [k|] eqn:G.
    - assert (Ch : chosen arg env k) by (apply chosen_iff, G).
      assert (Some_ : ~ (arg = None /\ env = None)).
      { intros [-> ->]. discriminate G. }
      destruct (hex_decode (sv k)) as [b|] eqn:D; cbn [ok_or bind].
      + apply spells_decode in D. assert (U : forall b', spells (sv k) b' -> b' = b) by (intros b' X; apply spells_decode in X, D; congruence).
        destruct (sk_from b) as [sk|] eqn:F; cbn [ok_or bind].
        * apply (kb_back Kb) in F. split; [|split; [|split; [|split]]].
          -- intros sk'. split.
             ++ intros E. injection E as <-. exists k. rewrite <- F. auto.
             ++ intros (k' & A & S). rewrite (Fn k' k A eq_refl) in S. apply U in S. f_equal. f_equal.
                assert (E : sk_from b = Some sk') by (apply (kb_back Kb); congruence). apply (kb_back Kb) in F. congruence.
          -- split; [discriminate|]. intros X. destruct (Some_ X).
          -- split; [discriminate|]. intros (k' & A & N). rewrite (Fn k' k A eq_refl) in N. destruct (N b D).
          -- split; [discriminate|]. intros (k' & b' & A & S & N). rewrite (Fn k' k A eq_refl) in S. apply U in S. subst b'. rewrite F in N. destruct (N (kb_len Kb sk)).
          -- discriminate.
        * split; [|split; [|split; [|split]]].
          -- intros sk'. split; [discriminate|]. intros (k' & A & S). rewrite (Fn k' k A eq_refl) in S. apply U in S. symmetry in S. apply (kb_back Kb) in S. congruence.
          -- split; [discriminate|]. intros X. destruct (Some_ X).
          -- split; [discriminate|]. intros (k' & A & N). rewrite (Fn k' k A eq_refl) in N. destruct (N b D).
          -- split; [|reflexivity]. intros _. exists k, b. split; [exact Ch|]. split; [exact D|]. intros L. exact (kb_all Kb b L F).
          -- discriminate.
      + split; [|split; [|split; [|split]]].
        * intros sk'. split; [discriminate|]. intros (k' & A & S). rewrite (Fn k' k A eq_refl) in S. apply spells_decode in S. congruence.
        * split; [discriminate|]. intros X. destruct (Some_ X).
        * split; [|reflexivity]. intros _. exists k. split; [exact Ch|]. intros b S. apply spells_decode in S. congruence.
        * split; [discriminate|]. intros (k' & b & A & S & _). rewrite (Fn k' k A eq_refl) in S. apply spells_decode in S. congruence.
        * discriminate.
    - assert (No : forall k, ~ chosen arg env k) by (intros k A; apply chosen_iff in A; congruence).
      split; [|split; [|split; [|split]]].
      + intros sk. split; [discriminate|]. intros (k & A & _). destruct (No k A).
      + split; [|reflexivity]. intros _. unfold given in G. destruct arg; [discriminate|auto].
      + split; [discriminate|]. intros (k & A & _). destruct (No k A).
      + split; [discriminate|]. intros (k & b & A & _). destruct (No k A).
      + discriminate.
  Qed.

  (** [keygen] prints the secret key as the client reads it and the public key as transactions written in JSON contain it *)
  Theorem C89_keygen : key_bytes -> forall sk, exists s t : rstring,
    keygen_text sk = sv (lit "secret-key: ") ++ sv s ++ [x0a] ++ sv (lit "public-key: ") ++ sv t ++ [x0a]
    /\ (forall env, client_key (Some s) env = Ok (Some sk)) /\ client_key None (Some s) = Ok (Some sk)
    /\ de_pk (CText t) = Ok (ed_public sk) /\ h_pk (ed_public sk) = CText t
    /\ List.length (sv s) = 64 /\ List.length (sv t) = 64.
  Proof.
    intros Kb sk. exists (mk_sub (hex_encode (sk_bytes sk)) (norm_true (hex_utf8 (sk_bytes sk)))).
    exists (mk_sub (hex_encode (arr_l (sv (ed_public sk)))) (norm_true (hex_utf8 (arr_l (sv (ed_public sk)))))).
    pose proof (hex_small (sk_bytes sk)) as [S _]. split.
    { unfold keygen_text, line. cbn [sv]. rewrite <- !app_assoc. reflexivity. }
    split; [|split; [|split; [|split; [|split]]]].
    - intros env. apply (C89_client_key Kb). eexists. split; [left; reflexivity|exact S].
    - apply (C89_client_key Kb). eexists. split; [right; split; reflexivity|exact S].
    - apply (de_h_pk (ed_public sk)).
    - reflexivity.
    - cbn [sv]. rewrite hex_encode_length, (kb_len Kb). reflexivity.
    - cbn [sv]. rewrite hex_encode_length, arr_len. reflexivity.
  Qed.

  (** the text written for an object, followed by a line end, is a document for its contents and for nothing else *)
  Lemma printed_doc j : jnums j = true -> jdepth j <= max_depth -> forall v, document (line (jpretty j)) v <-> v = content j.
  Proof.
    intros N D v. pose proof (jparse_pretty j N D) as P.
    assert (Doc : document (jpretty j) (content j)) by (apply json_iff; eauto).
    assert (Doc' : document (line (jpretty j)) (content j)).
    { destruct Doc as (a & s & b & E & Sa & Sb & R). exists a, s, (b ++ [x0a]). unfold line. rewrite E, <- !app_assoc. split; [reflexivity|]. split; [exact Sa|].
      split; [|exact R]. intros c I. apply in_app_or in I as [I|[<-|[]]]; [apply Sb, I|cbn; auto]. }
    split; [|intros ->; exact Doc']. intros X. apply json_iff in X as (j1 & P1 & <-), Doc' as (j2 & P2 & E2). congruence.
  Qed.

  Definition made_trustee (sk : ed_secret) : Trustee := mk_trustee (ed_public sk) x01 (u_of 8 1) x01.
  Lemma trustee_read sk : exists out, trustee_generate sk = Ok (hex_encode (sk_bytes sk), out) /\ forall v, document out v <-> v = h_trustee (made_trustee sk).
  Proof.
    eexists. split; [reflexivity|]. cbn [fst]. fold (made_trustee sk). set (t := made_trustee sk).
    assert (Tl : text_like (h_trustee t) = true) by reflexivity. intros v.
    assert (Dp : jdepth (to_json (h_trustee t)) <= max_depth) by (vm_compute; lia).
    rewrite (printed_doc _ (to_json_nums _ Tl) Dp), (content_to_json _ Tl). reflexivity.
  Qed.
  (** [trustee generate] writes the secret key as the client reads it, and prints a trustee with its public key and index 1 *)
  Theorem C89_trustee : key_bytes -> forall sk, exists file out,
    trustee_generate sk = Ok (file, out)
    /\ (forall (k : rstring) env, sv k = file -> client_key (Some k) env = Ok (Some sk)) /\ (exists k : rstring, sv k = file)
    /\ (exists v, document out v)
    /\ forall v, document out v -> exists t, de_trustee v = Ok t /\ tr_public_key t = ed_public sk /\ tr_index t = x01.
  Proof.
    intros Kb sk. destruct (trustee_read sk) as (out & G & Doc). exists (hex_encode (sk_bytes sk)), out. split; [exact G|]. split; [|split; [|split]].
    - intros k env E. apply (C89_client_key Kb). exists k. split; [left; reflexivity|]. rewrite E. apply hex_small.
    - apply hex_string.
    - eexists. apply Doc. reflexivity.
    - intros v V. apply Doc in V. subst v. exists (norm_trustee (made_trustee sk)). rewrite de_h_trustee. auto.
  Qed.
  Lemma hex_front n k : List.length (firstn n k) = n -> firstn (2 * n) (hex_encode k) = hex_encode (firstn n k).
  Proof.
    intros E. rewrite <- (firstn_skipn n k) at 1. rewrite hex_encode_app.
    assert (Q : 2 * n = List.length (hex_encode (firstn n k)) + 0) by (rewrite hex_encode_length, E; lia). rewrite Q, firstn_app_2. cbn [firstn]. apply app_nil_r.
  Qed.
  (** the node's key from the service keypair: in development mode the client is told exactly that key, and the
      election it then starts has the node as authority and only trustee *)
  Theorem C89_dev_key : key_bytes -> forall k, 32 <= List.length k -> exists sk (s : rstring),
    node_secret k = Ok sk /\ firstn 32 k = sk_bytes sk
    /\ dev_line k = sv (lit "CRYPTOBALLOT_SECRET_KEY=") ++ sv s ++ [x0a] /\ client_key None (Some s) = Ok (Some sk)
    /\ forall id, exists x el, cli_election id sk = Ok x /\ s_tx x = XElection el /\ one_trustee id (ed_public sk) el.
  Proof.
    intros Kb k L. assert (L32 : List.length (firstn 32 k) = 32) by (rewrite firstn_length; lia).
    destruct (sk_from (firstn 32 k)) as [sk|] eqn:F; [|destruct (kb_all Kb _ L32 F)]. pose proof (proj1 (kb_back Kb _ _) F) as B.
    destruct (hex_string (firstn 32 k)) as (s & S). exists sk, s. split.
    { unfold node_secret. rewrite hex_decode_encode. destruct (Nat.ltb_spec (List.length k) 32); [lia|]. rewrite F. reflexivity. }
    split; [exact B|]. split.
    { unfold dev_line, line. rewrite <- app_assoc, S. f_equal. f_equal. rewrite (hex_front 32 k L32 : firstn 64 _ = _). reflexivity. }
    split.
    { apply (C89_client_key Kb). exists s. split; [right; auto|]. rewrite S, B. apply hex_small. }
    intros id. destruct (election_made id sk) as (Cx & _). eexists _, _. split; [exact Cx|]. split; [reflexivity|].
    unfold one_trustee, made. cbn [el_id el_authority el_trustees el_threshold el_authenticators el_mix_config el_ballots el_contests].
    repeat split; try discriminate; eexists; repeat split.
  Qed.
  (** a key of fewer than 32 bytes stops the node *)
  Theorem C89_short_key : forall k, List.length k < 32 -> node_secret k = Panic PIndex.
  Proof. intros k L. unfold node_secret. rewrite hex_decode_encode. destruct (Nat.ltb_spec (List.length k) 32); [reflexivity|lia]. Qed.

  Lemma one_key {V} (k : rstring) (v : V) : exists m, sub_of (nodup_keys rs_eqb) [(k, v)] = Some m /\ sv m = [(k, v)].
  Proof. exists (@mk_sub _ (nodup_keys rs_eqb) [(k, v)] eq_refl). split; [|reflexivity]. apply sub_of_some. reflexivity. Qed.
  (** [authn generate]: in a release build keys shorter than 2048 bits are refused; otherwise an authenticator with one
      key, for the ballot "TEST", is printed and the secret of that key is written *)
  Theorem C89_authenticator {RB : RsaBlind} : forall dbg text keysize id gen,
    (dbg = false -> (keysize < 2048)%N -> authn_generate dbg text keysize id gen = Panic PAssert)
    /\ (dbg = true \/ (2048 <= keysize)%N -> exists out,
        authn_generate dbg text keysize id gen = Ok (text [(lit "TEST", gen 0)], out)
        /\ (exists v, document out v)
        /\ forall v, document out v -> exists a, de_authenticator v = Ok a /\ au_id a = id
             /\ sv (au_keys a) = [(lit "TEST", rsa_pub (gen 0))]).
  Proof.
    intros dbg text keysize id gen. unfold authn_generate. split.
    - intros -> K. apply N.ltb_lt in K. rewrite K. reflexivity.
    - intros K. assert (E : negb dbg && (keysize <? 2048)%N = false).
      { destruct K as [->|K]; [reflexivity|]. apply N.ltb_ge in K. rewrite K. apply andb_false_r. }
      rewrite E. cbn [new_authenticator new_keys put_str]. set (l := [(lit "TEST", rsa_pub (gen 0))]).
      destruct (one_key (lit "TEST") (rsa_pub (gen 0))) as (m & Em & Sm). fold l in Em, Sm. rewrite Em.
      set (a := mk_authenticator id m).
      assert (Nj : jnums (j_authenticator a) = true).
      { unfold j_authenticator. cbn [jnums forallb]. rewrite to_json_nums by apply tl_keys. reflexivity. }
      assert (Dj : jdepth (j_authenticator a) <= max_depth).
      { unfold j_authenticator, a, h_keys. cbn [au_id au_keys]. rewrite Sm. cbn. unfold max_depth. lia. }
      pose proof (printed_doc _ Nj Dj) as Doc. rewrite content_authenticator in Doc.
      eexists. split; [reflexivity|]. split; [eexists; apply Doc; reflexivity|].
      intros v V. apply Doc in V. subst v. exists a. rewrite de_c_authenticator. auto.
  Qed.

  (** ** What cannot be done with them *)
  Lemma dup_length {A} (l m : list A) (p q r : list A) i : NoDup l -> incl l m -> m = p ++ i :: q ++ i :: r -> List.length l < List.length m.
  Proof.
    intros N I ->. assert (J : incl l (p ++ i :: q ++ r)).
    { intros x X. specialize (I x X). rewrite !in_app_iff in *. cbn [In] in *. rewrite !in_app_iff in *. cbn [In] in *. tauto. }
    apply NoDup_incl_length in J; [|exact N]. rewrite !app_length in *. cbn [List.length] in *. rewrite !app_length in *. cbn [List.length]. lia.
  Qed.
  Lemma map_nodup_inv {A B D} (f : A -> B) (g : A -> D) (l : list A) : NoDup (map f l) ->
    (forall a b, In a l -> In b l -> g a = g b -> f a = f b) -> NoDup (map g l).
  Proof.
    induction l as [|a l IH]; cbn [map]; intros N H; [constructor|]. inversion N as [|? ? N1 N2]; subst. constructor.
    - intros I. apply in_map_iff in I as (b & E & I). apply N1, in_map_iff. exists b. split; [|exact I]. apply H; [right; exact I|left; reflexivity|exact E].
    - apply IH; [exact N2|]. intros x y X Y. apply H; right; assumption.
  Qed.
  (** if two trustees share an index, the commitments the nodes make never complete and no node makes a share *)
  Theorem C89_shared_index_stuck : forall dbg h el c sk r l,
    history dbg h -> at_id h (el_id el) (XElection el) -> shared_index el -> own_slots el h -> kc_election c = el_id el ->
    process_keygen_commitment sk r (ms_store (ms_from h)) c = Ok l -> l = [].
  Proof.
    intros dbg h el c sk r l Hh At (p & t & q & u & w & Et & Ei) Own Ec P. pose proof (stored_holds h) as H.
    assert (At' : at_id (stored h) (el_id el) (XElection el)).
    { destruct At as (x & I & E & T). exists x. split; [apply (hist_stored dbg); assumption|auto]. }
    unfold process_keygen_commitment in P. rewrite Ec in P. pose proof (proj2 (t_election_iff _ _ H (el_id el) el) At') as Te. rewrite Te in P. cbn [bind] in P.
    destruct (trustee_from_election el (node_key sk)); [|congruence]. apply bind_ok in P as (cs & R & P).
    apply (t_multiple_iff _ _ H _ _ _ _ _ as_commitment_iff) in R.
    assert (Lt : List.length cs < List.length (el_trustees el)); [|destruct (Nat.eqb_spec (List.length cs) (List.length (el_trustees el))); [lia|congruence]].
    set (L := listed (stored h) (el_id el) TKeyGenCommitment) in *.
    assert (F : forall x, In x L -> exists a, s_tx x = XCommitment a /\ kc_election a = el_id el /\ s_id x = commitment_build_id (el_id el) (kc_trustee a) /\ In x h).
    { intros x I. assert (J : In (s_tx x) (map XCommitment cs)) by (unfold range_is in R; fold L in R; rewrite <- R; apply in_map, I).
      apply in_map_iff in J as (a & Ea & _). apply listed_in in I as (I & Ie & _). apply (hist_stored dbg _ _ Hh) in I.
      destruct (Own x a I (eq_sym Ea) Ie). eauto 6. }
    assert (N : NoDup (map kc_trustee cs)).
    { set (g := fun t : Tx => match t with XCommitment a => kc_trustee a | _ => x00 end).
      replace (map kc_trustee cs) with (map (fun x => g (s_tx x)) L).
      - apply (map_nodup_inv s_id).
        + apply asc_nodup, listed_asc, stored_asc.
        + intros x y X Y E. destruct (F x X) as (a & Ta & _ & Ia & _), (F y Y) as (b & Tb & _ & Ib & _). rewrite Ta, Tb in E. cbn [g] in E. congruence.
      - rewrite <- (map_map s_tx g). unfold range_is in R. fold L in R. rewrite R, map_map. reflexivity. }
    rewrite <- (map_length kc_trustee), <- (map_length tr_index (el_trustees el)).
    eapply (dup_length _ _ (map tr_index p) (map tr_index q) (map tr_index w) (tr_index t) N).
    - intros i I. apply in_map_iff in I as (a & <- & Ia). assert (J : In (XCommitment a) (map s_tx L)) by (unfold range_is in R; fold L in R; rewrite R; apply in_map, Ia).
      apply in_map_iff in J as (x & Tx & Ix). destruct (F x Ix) as (a' & Ta & El & _ & Ih). assert (a' = a) as -> by congruence.
      apply (hist_accepted dbg) in Ih as (h1 & h2 & Eh & Hh1 & _ & V); [|exact Hh].
      apply (validate_iff _ _ (stored_holds h1)) in V as (_ & _ & V). rewrite Tx in V. destruct V as (el' & At1 & (tr & I1 & I2 & _)). rewrite El in At1.
      assert (el' = el) as ->.
      { destruct At1 as (y & Iy & Ey & Ty), At as (z & Iz & Ez & Tz). apply (hist_stored dbg _ _ Hh1) in Iy.
        assert (y = z) by (apply (hist_unique dbg h); [exact Hh|rewrite Eh; apply in_or_app; left; exact Iy|exact Iz|congruence]). congruence. }
      rewrite <- I2. apply in_map, I1.
    - rewrite Et, !map_app. cbn [map]. rewrite map_app. cbn [map]. rewrite Ei. reflexivity.
  Qed.

  (** an authentication by an authenticator made with the command is for the ballot "TEST" *)
  Theorem C89_only_test {RB : RsaBlind} : forall dbg h x v el, history dbg h -> In x h -> s_tx x = XVote v ->
    at_id h (vt_election v) (XElection el) ->
    (forall a, In a (el_authenticators el) -> exists d text size id gen file out doc,
        authn_generate d text size id gen = Ok (file, out) /\ document out doc /\ de_authenticator doc = Ok a) ->
    vt_authn v <> [] -> vt_ballot v = lit "TEST".
  Proof.
    intros dbg h x v el Hh Ix Tx At Made Ne. destruct (vt_authn v) as [|an l] eqn:Ea; [congruence|].
    pose proof Ix as Ih. apply (hist_accepted dbg) in Ih as (h1 & h2 & Eh & Hh1 & _ & V); [|exact Hh].
    apply (validate_iff _ _ (stored_holds h1)) in V as (_ & _ & V). rewrite Tx in V. destruct V as (el' & At1 & _ & _ & _ & _ & Au & _).
    assert (el' = el) as ->.
    { destruct At1 as (y & Iy & Ey & Ty), At as (z & Iz & Ez & Tz). apply (hist_stored dbg _ _ Hh1) in Iy.
      assert (y = z) by (apply (hist_unique dbg h); [exact Hh|rewrite Eh; apply in_or_app; left; exact Iy|exact Iz|congruence]). congruence. }
    destruct (Au an) as (a & Fa & pk & d & Ik & _); [rewrite Ea; left; reflexivity|]. apply first_in in Fa as [Ia _].
    destruct (Made a Ia) as (dg & text & size & id & gen & file & out & doc & G & D & De).
    assert (K : dg = true \/ (2048 <= size)%N).
    { destruct dg; [left; reflexivity|right]. destruct (N.lt_ge_cases size 2048) as [S|S]; [|exact S].
      rewrite (proj1 (C89_authenticator false text size id gen) eq_refl S) in G. discriminate G. }
    destruct (proj2 (C89_authenticator dg text size id gen) K) as (out' & G' & _ & Q).
    assert (out' = out) as -> by congruence. destruct (Q doc D) as (a' & De' & _ & Ks). assert (a' = a) as -> by congruence.
    rewrite Ks in Ik. destruct Ik as [E|[]]. congruence.
  Qed.
End Props.

(** ** Concrete cases *)
#[local] Existing Instance Toy.
#[local] Existing Instance ToyT.
#[local] Instance ToySB : @SecretBytes Toy := { sk_from := arr_of 32 : bytes -> option (@ed_secret Toy) }.
#[local] Instance ToyRB : @RsaBlind Toy := {
  rsa_secret := unit; rsa_pub := fun _ : unit => rsa1; rsa_blind := fun _ _ h => (h, []); rsa_sign := fun _ m => Some m; rsa_unblind := fun _ s _ => s }.
Lemma toy_keys : key_bytes.
Proof.
  split.
  - intros sk. apply (@arr_len 32).
  - intros b sk. destruct (arr_of_some 32 b sk) as [P Q]. split; intros H; [exact (eq_sym (P H))|exact (Q (eq_sym H))].
  - intros b L E. apply arr_of_none in E. exact (E L).
Qed.

(** the same key in small and in capital letters, an odd digit too many, a key too short; the argument comes first *)
Definition hexA : bytes := hex_encode (@arr_l 32 (key_of xab)).
Definition capitals (s : bytes) : bytes := map (fun c => if (97 <=? u8v c)%N then u8_of (u8v c - 32) else c) s.
Example C89_key_case :
  client_key (Some (s1 hexA)) (Some (lit "zz")) = Ok (Some (key_of xab)) /\ client_key None (Some (s1 (capitals hexA))) = Ok (Some (key_of xab))
  /\ capitals hexA <> hexA
  /\ client_key (Some (s1 (hexA ++ [x30]))) None = Err BadHex /\ client_key (Some (lit "")) (Some (s1 hexA)) = Err BadKey /\ client_key None None = Ok None
  /\ node_secret (@arr_l 32 (key_of xab) ++ @arr_l 32 (key_of x01)) = Ok (key_of xab) /\ node_secret [x01] = Panic PIndex
  /\ dev_line (@arr_l 32 (key_of xab) ++ @arr_l 32 (key_of x01)) = sv (lit "CRYPTOBALLOT_SECRET_KEY=") ++ hexA ++ [x0a].
Proof. vm_compute. repeat split. discriminate. Qed.

Definition skS (b : byte) : @ed_secret Toy := key_of b.
Lemma split8 a b c d e f g h : a && b && c && d && e && f && g && h = true ->
  a = true /\ b = true /\ c = true /\ d = true /\ e = true /\ f = true /\ g = true /\ h = true.
Proof. rewrite !andb_true_iff. tauto. Qed.
(** an election of two trustees made with the command: it is recorded, the nodes of both send their commitments,
    but to the same identifier; no node ever makes a share *)
Definition elS : ElectionTx :=
  mk_election EID (pk_of x01) [T x0a x01; T x0b x01] x02 [] x00 None [ballot1] [contest0] no_props.
Definition sentS (b : byte) : STx := match process_election (skS b) elS with Ok [x] => x | _ => votingend end.
Definition histS : list STx := [sgn x01 (XElection elS); sentS x0a].
Definition noneS : CommitmentTx := mk_commitment EID EID x00 (pk_of x00) (arr_rep x00 32) (any CNull).
Definition comS : CommitmentTx :=
  match s_tx (sentS x0a) with XCommitment c => c | _ => noneS end.
Definition factsS : bool :=
  checks true [] histS ms_empty
  && match process_election (skS x0a) elS with Ok [_] => true | _ => false end && match process_election (skS x0b) elS with Ok [_] => true | _ => false end
  && id_eqb (s_id (sentS x0a)) (s_id (sentS x0b)) && id_eqb (kc_election comS) EID && id_eqb (s_id (sentS x0a)) (commitment_build_id EID (kc_trustee comS))
  && match s_tx (sentS x0a) with XCommitment _ => true | _ => false end
  && match process_keygen_commitment (skS x0b) rnd0 (ms_store (ms_from histS)) comS with Ok [] => true | _ => false end.
Lemma factsS_ok : factsS = true.
Proof. vm_compute. reflexivity. Qed.
Lemma generated b : exists file out v, trustee_generate (skS b) = Ok (file, out) /\ document out v /\ de_trustee v = Ok (T b x01).
Proof.
  destruct (trustee_read (skS b)) as (out & G & Doc). eexists _, out, _. split; [exact G|]. split; [apply Doc; reflexivity|]. apply de_h_trustee.
Qed.
Lemma first_of (m : res TaskError (list STx)) d : match m with Ok [_] => true | _ => false end = true -> m = Ok [match m with Ok [x] => x | _ => d end].
Proof. destruct m as [[|y [|]]| |]; try discriminate. reflexivity. Qed.
Lemma clash el s0 x1 x2 c d sk1 sk2 : checks true [] [s0; x1] ms_empty = true -> s_tx s0 = XElection el -> s_id s0 = el_id el ->
  process_election sk1 el = Ok [x1] -> process_election sk2 el = Ok [x2] -> id_eqb (s_id x1) (s_id x2) = true ->
  c = match s_tx x1 with XCommitment c => c | _ => d end -> id_eqb (kc_election c) (el_id el) = true ->
  id_eqb (s_id x1) (commitment_build_id (el_id el) (kc_trustee c)) = true ->
  exists h x1 x2, history true h /\ at_id h (el_id el) (XElection el) /\ own_slots el h
       /\ process_election sk1 el = Ok [x1] /\ process_election sk2 el = Ok [x2] /\ In x1 h /\ s_id x2 = s_id x1.
Proof.
  intros F1 T0 I0 P1 P2 F3 Ec F4 F5. exists [s0; x1], x1, x2. apply id_eqb_eq in F3, F4, F5. split; [apply run_history, F1|].
  split; [exists s0; split; [left; reflexivity|auto]|]. split; [|split; [exact P1|split; [exact P2|split; [right; left; reflexivity|symmetry; exact F3]]]].
  intros x t [<-|[<-|[]]] Tx _; [congruence|]. rewrite Tx in Ec. subst t. auto.
Qed.
Theorem C89_together_refuted : exists sk1 sk2 el,
  (forall t, In t (el_trustees el) -> exists sk file out v, (sk = sk1 \/ sk = sk2) /\ trustee_generate sk = Ok (file, out) /\ document out v /\ de_trustee v = Ok t)
  /\ is_trustee el (ed_public sk1) /\ is_trustee el (ed_public sk2) /\ sk1 <> sk2
  /\ (exists h x1 x2, history true h /\ at_id h (el_id el) (XElection el) /\ own_slots el h
       /\ process_election sk1 el = Ok [x1] /\ process_election sk2 el = Ok [x2] /\ In x1 h /\ s_id x2 = s_id x1)
  /\ forall dbg h c sk r l, history dbg h -> at_id h (el_id el) (XElection el) -> own_slots el h -> kc_election c = el_id el ->
     process_keygen_commitment sk r (ms_store (ms_from h)) c = Ok l -> l = [].
Proof.
  exists (skS x0a), (skS x0b), elS. split; [|split; [|split; [|split; [|split]]]].
  - intros t [<-|[<-|[]]].
    + destruct (generated x0a) as (file & out & v & G & V & D). exists (skS x0a), file, out, v. auto.
    + destruct (generated x0b) as (file & out & v & G & V & D). exists (skS x0b), file, out, v. auto.
  - exists (T x0a x01). split; [left; reflexivity|reflexivity].
  - exists (T x0b x01). split; [right; left; reflexivity|reflexivity].
  - discriminate.
  - pose proof factsS_ok as F. unfold factsS in F. apply split8 in F as (F1 & F2 & F2' & F3 & F4 & F5 & F6 & _).
    apply (first_of _ votingend) in F2, F2'. exact (clash elS (sgn x01 (XElection elS)) (sentS x0a) (sentS x0b) comS noneS (skS x0a) (skS x0b) F1 eq_refl eq_refl F2 F2' F3 eq_refl F4 F5).
  - intros dbg h c sk r l Hh At Own Ec Pk. eapply (C89_shared_index_stuck dbg h elS); try eassumption.
    exists [], (T x0a x01), [], (T x0b x01), []. split; reflexivity.
Qed.

(** a vote on the ballot "TEST", authenticated by an authenticator made with the command, is recorded *)
Definition authT : Authenticator :=
  mk_authenticator UID (@mk_sub _ (nodup_keys rs_eqb) [(lit "TEST", rsa1)] eq_refl).
Definition elT : ElectionTx :=
  mk_election EID (pk_of x01) [T x0a x01; T x0b x02] x02 [authT] x01 None [mk_ballot (lit "TEST") [n32 0] no_props] [contest0] no_props.
Definition voteT : VoteTx :=
  mk_vote (vote_build_id EID (key_of x20)) EID (lit "TEST") [mk_encvote (n32 0) [enc (sel (lit "yes")) 7]] (pk_of x20)
    [mk_authentication UID ([x99] ++ toy_hash (auth_pack EID (lit "TEST") (pk_of x20)))].
Definition histT : list STx := sgn x01 (XElection elT) :: tl (setup None) ++ [sgn x20 (XVote voteT)].
Definition genT (n : nat) : @rsa_secret _ ToyRB := (tt : unit).
Example C89_only_test_case : history true histT /\ In (sgn x20 (XVote voteT)) histT /\ at_id histT (vt_election voteT) (XElection elT) /\ vt_authn voteT <> []
  /\ forall a, In a (el_authenticators elT) -> exists d text size id gen file out doc,
        authn_generate d text size id gen = Ok (file, out) /\ document out doc /\ de_authenticator doc = Ok a.
Proof.
  split; [apply run_history; vm_compute; reflexivity|]. split; [unfold histT; cbn; auto 12|]. split; [exists (sgn x01 (XElection elT)); split; [left; reflexivity|split; reflexivity]|].
  split; [discriminate|]. intros a [<-|[]]. exists false, (fun _ => []), 2048%N, UID, genT.
  destruct (proj2 (C89_authenticator false (fun _ => []) 2048%N UID genT)) as (out & G & (v & V) & Q); [right; lia|].
  destruct (Q v V) as (a & D & I & K). eexists _, out, v. split; [exact G|]. split; [exact V|]. rewrite D. f_equal. destruct a as [i m].
  cbn [au_id au_keys] in I, K. subst i. unfold authT. f_equal. apply sub_ext, K.
Qed.

Print Assumptions C89_client_key.
Print Assumptions C89_keygen.
Print Assumptions C89_trustee.
Print Assumptions C89_dev_key.
Print Assumptions C89_short_key.
Print Assumptions C89_authenticator.
Print Assumptions C89_shared_index_stuck.
Print Assumptions C89_only_test.
Print Assumptions C89_together_refuted.
