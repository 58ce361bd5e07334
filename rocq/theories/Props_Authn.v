(** * Props_Authn: C52 (blind signatures verify), C64 (blindness). *)
From Coq Require Import ZArith Znumtheory Zpow_facts.
From Coq Require Strings.String.
From Verif Require Import Base BaseFacts Utf8 Cbor CborFacts Ident BuildId Crypto Types Serde SerdeFacts Store SpecStore Prost Validate ValidateFacts
  SpecValid ValidFacts ValidFacts2 SpecVote Props_Vote RsaFacts Authn SpecAuthn Toy.
Import String.StringSyntax.
Open Scope list_scope.

Lemma number_from_nonneg l : forall a, (0 <= a)%Z -> (0 <= number_from a l)%Z.
Proof. induction l as [|b l IH]; intros a A; cbn [number_from]; [exact A|]. apply IH. lia. Qed.
Lemma number_nonneg l : (0 <= number l)%Z.
Proof. apply number_from_nonneg. lia. Qed.

(** ** Arithmetic of one exchange *)
Section Arith.
  Open Scope Z_scope.
  Context (n e d : Z) (K : rsa_key n e d).

  Lemma key_pos : 1 < n /\ 0 < e /\ 0 < d.
  Proof.
    destruct K as (p & q & P & Q & N & -> & E & D & _). pose proof (prime_ge_2 _ P). pose proof (prime_ge_2 _ Q). nia.
  Qed.
  Lemma ed_id a : (a ^ e) ^ d mod n = a mod n.
  Proof.
    destruct K as (p & q & P & Q & N & -> & E & D & A & B).
    assert (M : forall m, (m | e * d - 1) -> (e * d) mod m = 1 mod m).
    { intros m [k X]. replace (e * d) with (1 + k * m) by lia. apply Z_mod_plus_full. }
    apply rsa_identity; [assumption|assumption|assumption|lia|lia|apply M, A|apply M, B|nia].
  Qed.
  Lemma de_id a : (a ^ d) ^ e mod n = a mod n.
  Proof. rewrite <- (ed_id a). pose proof key_pos. rewrite <- !Z.pow_mul_r by lia. f_equal. f_equal. lia. Qed.

  (** signing the blinded value and unblinding gives h^d *)
  Lemma unblinded h r u : (r * u) mod n = 1 mod n ->
    ((((h * r ^ e) mod n) ^ d mod n) * u) mod n = h ^ d mod n.
  Proof.
    intros U. pose proof key_pos as (N & E & D).
    rewrite Zmult_mod_idemp_l. rewrite <- Zmult_mod_idemp_l. rewrite <- Zpower_mod by lia.
    rewrite Zmult_mod_idemp_l, Z.pow_mul_l.
    rewrite <- Z.mul_assoc, <- Zmult_mod_idemp_r.
    replace (((r ^ e) ^ d * u) mod n) with (1 mod n); [rewrite Zmult_mod_idemp_r; f_equal; ring|].
    rewrite <- Zmult_mod_idemp_l, ed_id, Zmult_mod_idemp_l. symmetry. exact U.
  Qed.
End Arith.

Section Props.
  Context {C : Crypto} {RB : RsaBlind}.
  Context (modulus exponent : AuthPublicKey -> Z) (private : rsa_secret -> Z).

  Lemma blinded_small (S : rsa_scheme modulus exponent private) pk r h : rel_prime r (modulus pk) ->
    (number (fst (rsa_blind pk r h)) < modulus pk)%Z.
  Proof.
    intros R. rewrite (proj1 (rs_blind _ _ _ S pk r h R)). apply Z.mod_pos_bound, (rs_pos _ _ _ S).
  Qed.

  (** the exchange always succeeds and its signature is the digest to the private power *)
  Lemma obtain_ok (S : rsa_scheme modulus exponent private) {E} a sk e b k r h :
    rel_prime r (modulus (rsa_pub sk)) -> rsa_hash (rsa_pub sk) (auth_pack e b k) = Some h ->
    exists an, @obtain C RB E r a sk (rsa_pub sk) e b k = Ok an /\ an_authenticator an = au_id a
      /\ number (an_signature an) = (number h ^ private sk mod modulus (rsa_pub sk))%Z.
  Proof.
    intros R Hh. unfold obtain, auth_blind, auth_digest. rewrite Hh. cbn [or_panic bind].
    destruct (rs_sign _ _ _ S sk _ (blinded_small S (rsa_pub sk) r h R)) as (s & Es & Ns).
    unfold authenticate. rewrite Es. cbn [or_panic bind fst snd].
    exists (auth_unblind (mk_authentication (au_id a) s) (rsa_pub sk) (snd (rsa_blind (rsa_pub sk) r h))).
    split; [reflexivity|]. split; [reflexivity|]. cbn [auth_unblind an_signature].
    rewrite (rs_unblind _ _ _ S), Ns. destruct (rs_blind _ _ _ S (rsa_pub sk) r h R) as [B U]. rewrite B.
    apply (unblinded _ (exponent (rsa_pub sk)) _ (rs_key _ _ _ S sk)). exact U.
  Qed.

  (** C52: every authentication obtained this way is accepted, for every package, key pair and blinding factor *)
  Theorem C52_blind_signature_verifies :
    rsa_scheme modulus exponent private ->
    forall a sk e b k r, In (b, rsa_pub sk) (sv (au_keys a)) -> rel_prime r (modulus (rsa_pub sk)) ->
    rsa_hash (rsa_pub sk) (auth_message e b k) <> None ->
    exists an, @obtain C RB VError r a sk (rsa_pub sk) e b k = Ok an /\ an_authenticator an = au_id a
      /\ auth_verify a e b k (an_signature an) = Ok tt.
  Proof.
    intros S a sk e b k r I R Hh. rewrite <- auth_pack_message in Hh. destruct (rsa_hash (rsa_pub sk) (auth_pack e b k)) as [h|] eqn:Eh; [|contradiction].
    destruct (@obtain_ok S VError a sk e b k r h R Eh) as (an & O & A & N). exists an. split; [exact O|]. split; [exact A|].
    apply auth_verify_iff. exists (rsa_pub sk), h. split; [exact I|]. split; [rewrite <- auth_pack_message; exact Eh|].
    pose proof (rs_hash _ _ _ S _ _ _ Eh) as Hs. apply (rs_verify _ _ _ S); [exact Hs|rewrite N; apply Z.mod_pos_bound, (rs_pos _ _ _ S)|]. rewrite N.
    rewrite <- Zpower_mod by apply (rs_pos _ _ _ S).
    rewrite (de_id _ _ _ (rs_key _ _ _ S sk)). apply Z.mod_small. pose proof (number_nonneg h). lia.
  Qed.

  (** a vote carrying such authentications of authenticators of its election is not refused for them *)
  Theorem C52_vote_authenticated :
    rsa_scheme modulus exponent private ->
    forall el t, (forall an, In an (vt_authn t) -> exists a sk r,
        In a (el_authenticators el) /\ NoDup (map au_id (el_authenticators el))
        /\ In (vt_ballot t, rsa_pub sk) (sv (au_keys a)) /\ rel_prime r (modulus (rsa_pub sk))
        /\ @obtain C RB VError r a sk (rsa_pub sk) (vt_election t) (vt_ballot t) (vt_key t) = Ok an) ->
    forall an, In an (vt_authn t) -> exists a, first_with (fun a => au_id a = an_authenticator an) (el_authenticators el) a
      /\ authenticated a (vt_election t) (vt_ballot t) (vt_key t) (an_signature an).
  Proof.
    intros S el t H an A. destruct (H an A) as (a & sk & r & Ia & ND & Ik & R & O).
    assert (Hh : rsa_hash (rsa_pub sk) (auth_message (vt_election t) (vt_ballot t) (vt_key t)) <> None).
    { intros N. unfold obtain, auth_blind, auth_digest in O. rewrite auth_pack_message, N in O. discriminate O. }
    destruct (C52_blind_signature_verifies S a sk _ _ _ r Ik R Hh) as (an' & O' & Ia' & V).
    rewrite O in O'. injection O' as <-. exists a. split; [|apply auth_verify_iff; exact V].
    apply in_split in Ia as (pre & post & E). exists pre, post. split; [exact E|]. split; [congruence|].
    intros x X Q. rewrite E, map_app in ND. cbn [map] in ND. apply NoDup_remove_2 in ND. apply ND.
    rewrite in_app_iff. left. replace (au_id a) with (au_id x) by congruence. apply in_map, X.
  Qed.

  (** under one RSA key a signature is accepted for one package only, unless two packages have the same digest.
      Full statement: no signature is accepted for two packages; nothing excludes one that verifies under the keys of two ballots. *)
  Theorem C52_one_package_partial :
    rsa_scheme modulus exponent private ->
    forall a pk e b k e' b' k' sig, In (b, pk) (sv (au_keys a)) -> In (b', pk) (sv (au_keys a)) ->
    (N.of_nat (List.length (sv b)) < 2^64)%N -> (N.of_nat (List.length (sv b')) < 2^64)%N ->
    auth_verify a e b k sig = Ok tt -> auth_verify a e' b' k' sig = Ok tt ->
    (e = e' /\ b = b' /\ k = k')
    \/ (exists h h', auth_message e b k <> auth_message e' b' k' /\ rsa_hash pk (auth_message e b k) = Some h
          /\ rsa_hash pk (auth_message e' b' k') = Some h' /\ number h = number h').
  Proof.
    intros S a pk e b k e' b' k' sig I I' Lb Lb' V V'. apply auth_verify_iff in V as (p & h & J & Hh & X).
    apply auth_verify_iff in V' as (p' & h' & J' & Hh' & X').
    assert (P : p = pk).
    { apply (assoc_in _ rs_eqb_eq) in J; [|apply (s_ok (au_keys a))]. apply (assoc_in _ rs_eqb_eq) in I; [|apply (s_ok (au_keys a))]. congruence. }
    assert (P' : p' = pk).
    { apply (assoc_in _ rs_eqb_eq) in J'; [|apply (s_ok (au_keys a))]. apply (assoc_in _ rs_eqb_eq) in I'; [|apply (s_ok (au_keys a))]. congruence. }
    subst p p'. apply (rs_sound _ _ _ S) in X; [|exact (rs_hash _ _ _ S _ _ _ Hh)].
    apply (rs_sound _ _ _ S) in X'; [|exact (rs_hash _ _ _ S _ _ _ Hh')].
    destruct (bytes_eqb (auth_message e b k) (auth_message e' b' k')) eqn:Q.
    - left. apply bytes_eqb_eq in Q. exact (C15_authentication_message_injective _ _ _ _ _ _ Lb Lb' Q).
    - right. exists h, h'. split; [|split; [exact Hh|split; [exact Hh'|congruence]]].
      intros Z0. apply bytes_eqb_eq in Z0. congruence.
  Qed.

  (** ** Keys of a new authenticator *)
  Lemma put_str_keys {V} k (v : V) l k0 : mem_key rs_eqb k0 (map fst (put_str k v l)) = rs_eqb k0 k || mem_key rs_eqb k0 (map fst l).
  Proof.
    induction l as [|[k' v'] l IH]; cbn [put_str map fst mem_key]; [reflexivity|].
    destruct (rs_eqb k k') eqn:E; cbn [map fst mem_key].
    - apply rs_eqb_eq in E. subst k'. destruct (rs_eqb k0 k); reflexivity.
    - rewrite IH. destruct (rs_eqb k0 k), (rs_eqb k0 k'); reflexivity.
  Qed.
  Lemma put_str_nodup {V} k (v : V) l : nodup_keys rs_eqb l = true -> nodup_keys rs_eqb (put_str k v l) = true.
  Proof.
    induction l as [|[k' v'] l IH]; cbn [put_str nodup_keys map mem_key]; [reflexivity|].
    rewrite andb_true_iff. intros [A B]. destruct (rs_eqb k k') eqn:E; cbn [nodup_keys].
    - rewrite A. exact B.
    - rewrite put_str_keys, IH by exact B. rewrite andb_true_r. destruct (rs_eqb k' k) eqn:E'; [|exact A].
      apply rs_eqb_eq in E'. subst k'. rewrite (proj2 (rs_eqb_eq k k) eq_refl) in E. discriminate.
  Qed.
  Definition matching (pubs : list (rstring * AuthPublicKey)) (secs : list (rstring * rsa_secret)) : Prop :=
    pubs = map (fun p => (fst p, rsa_pub (snd p))) secs.
  Lemma put_matching b x pubs secs : matching pubs secs -> matching (put_str b (rsa_pub x) pubs) (put_str b x secs).
  Proof.
    unfold matching. intros ->. induction secs as [|[k v] secs IH]; cbn [map put_str fst snd]; [reflexivity|].
    destruct (rs_eqb b k); cbn [map fst snd]; [reflexivity|]. rewrite IH. reflexivity.
  Qed.
  Lemma new_keys_spec ballots gen n pubs secs : matching pubs secs -> nodup_keys rs_eqb pubs = true ->
    let r := new_keys n gen ballots pubs secs in
    matching (fst r) (snd r) /\ nodup_keys rs_eqb (fst r) = true
    /\ (forall b, mem_key rs_eqb b (map fst (snd r)) = mem_key rs_eqb b ballots || mem_key rs_eqb b (map fst secs)).
  Proof.
    revert n pubs secs. induction ballots as [|b bs IH]; intros n pubs secs M N; cbn [new_keys].
    - cbn [fst snd mem_key orb]. auto.
    - destruct (IH (S n) _ _ (put_matching b (gen n) _ _ M) (put_str_nodup b (rsa_pub (gen n)) _ N)) as (A & B & D).
      split; [exact A|]. split; [exact B|]. intros b0. rewrite D, put_str_keys. cbn [mem_key].
      destruct (rs_eqb b0 b), (mem_key rs_eqb b0 bs); reflexivity.
  Qed.
  Lemma mem_key_in b (l : list rstring) : mem_key rs_eqb b l = true <-> In b l.
  Proof.
    induction l as [|x l IH]; cbn [mem_key In]; [split; [discriminate|contradiction]|].
    rewrite orb_true_iff, rs_eqb_eq, IH. split; intros [X|X]; auto.
  Qed.
  (** for every ballot the published key belongs to the secret key handed out for the same ballot *)
  Theorem C52_new_authenticator :
    forall id gen ballots, exists a, fst (new_authenticator id gen ballots) = Some a /\ au_id a = id
      /\ (forall b pk, In (b, pk) (sv (au_keys a)) <-> exists sk, In (b, sk) (snd (new_authenticator id gen ballots)) /\ pk = rsa_pub sk)
      /\ (forall b, In b ballots <-> exists sk, In (b, sk) (snd (new_authenticator id gen ballots))).
  Proof.
    intros id gen ballots. unfold new_authenticator.
    destruct (new_keys_spec ballots gen 0 [] [] eq_refl eq_refl) as (M & N & D).
    destruct (new_keys 0 gen ballots [] []) as [pubs secs]. cbn [fst snd] in *.
    destruct (sub_of (nodup_keys rs_eqb) pubs) as [m|] eqn:E.
    - exists (mk_authenticator id m). split; [reflexivity|]. split; [reflexivity|]. apply sub_of_some in E.
      split.
      + intros b pk. cbn [au_keys]. rewrite E, M, in_map_iff. split.
        * intros ([b0 sk] & Q & I). cbn [fst snd] in Q. injection Q as <- <-. exists sk. auto.
        * intros (sk & I & ->). exists (b, sk). auto.
      + intros b. rewrite <- mem_key_in. specialize (D b). cbn [map mem_key] in D. rewrite orb_false_r in D. rewrite <- D, mem_key_in, in_map_iff. split.
        * intros ([b0 sk] & Q & I). cbn [fst] in Q. subst b0. exists sk. exact I.
        * intros (sk & I). exists (b, sk). auto.
    - exfalso. pose proof (sub_of_sv (mk_sub pubs N)) as Q. cbn [sv] in Q. congruence.
  Qed.

  Lemma put_str_in {V} k (v : V) l b x : nodup_keys rs_eqb l = true -> In (b, x) (put_str k v l) <-> (b = k /\ x = v) \/ (b <> k /\ In (b, x) l).
  Proof.
    induction l as [|[k' v'] l IH]; cbn [put_str nodup_keys map mem_key].
    - intros _. cbn [In]. split; [intros [Q|[]]; injection Q as <- <-; auto|intros [[-> ->]|[_ []]]; auto].
    - rewrite andb_true_iff, negb_true_iff. intros [A B]. destruct (rs_eqb k k') eqn:E; cbn [In].
      + apply rs_eqb_eq in E. subst k'. split.
        * intros [Q|I]; [injection Q as <- <-; auto|]. right. split; [|auto]. intros ->. apply in_map with (f := fst) in I. apply mem_key_in in I. cbn [fst] in I. congruence.
        * intros [[-> ->]|[N [Q|I]]]; [auto| |auto]. injection Q as <- _. contradiction.
      + rewrite (IH B). split.
        * intros [Q|[Q|[N I]]]; [|auto..]. injection Q as <- <-. right. split; [|auto]. intros ->. rewrite (proj2 (rs_eqb_eq k k) eq_refl) in E. discriminate E.
        * intros [Q|[N [Q|I]]]; auto.
  Qed.
  Lemma new_keys_last gen ballots : forall n pubs secs b x, nodup_keys rs_eqb secs = true ->
    In (b, x) (snd (new_keys n gen ballots pubs secs)) <->
    (exists p q, ballots = p ++ b :: q /\ ~ In b q /\ x = gen (n + List.length p)%nat) \/ (~ In b ballots /\ In (b, x) secs).
  Proof.
    induction ballots as [|c bs IH]; intros n pubs secs b x N; cbn [new_keys].
    - cbn [snd In]. split; [auto|]. intros [(p & q & E & _)|[_ I]]; [destruct p; discriminate E|exact I].
    - rewrite IH by (apply put_str_nodup, N). rewrite put_str_in by exact N. split.
      + intros [(p & q & -> & Q & ->)|[Q [[-> ->]|[D I]]]].
        * left. exists (c :: p), q. split; [reflexivity|]. split; [exact Q|]. cbn [List.length]. f_equal. lia.
        * left. exists [], bs. split; [reflexivity|]. split; [exact Q|]. cbn [List.length]. f_equal. lia.
        * right. split; [|exact I]. intros [E|E]; [congruence|contradiction].
      + intros [(p & q & E & Q & ->)|[Q I]].
        * destruct p as [|c' p]; injection E as -> E.
          -- subst q. right. split; [exact Q|]. left. split; [reflexivity|]. cbn [List.length]. f_equal. lia.
          -- left. exists p, q. split; [exact E|]. split; [exact Q|]. cbn [List.length]. f_equal. lia.
        * right. split; [intros J; apply Q; right; exact J|]. right. split; [intros ->; apply Q; left; reflexivity|exact I].
  Qed.
  (** which key: the one generated for the last mention of the ballot *)
  Theorem C52_last_key : forall id gen ballots b sk, In (b, sk) (snd (new_authenticator id gen ballots)) <->
    exists p q, ballots = p ++ b :: q /\ ~ In b q /\ sk = gen (List.length p).
  Proof.
    intros id gen ballots b sk. unfold new_authenticator. pose proof (new_keys_last gen ballots 0 [] [] b sk eq_refl) as H.
    destruct (new_keys 0 gen ballots [] []) as [pubs secs]. cbn [snd] in *. rewrite H. split; [|auto]. intros [X|[_ []]]. exact X.
  Qed.

  (** ** C64: blindness *)
  (** the published signature depends on the package and the key only, not on the blinding factor *)
  Theorem C64_signature_fixed :
    rsa_scheme modulus exponent private ->
    forall a sk e b k r r' an an', rel_prime r (modulus (rsa_pub sk)) -> rel_prime r' (modulus (rsa_pub sk)) ->
    @obtain C RB VError r a sk (rsa_pub sk) e b k = Ok an -> @obtain C RB VError r' a sk (rsa_pub sk) e b k = Ok an' ->
    number (an_signature an) = number (an_signature an').
  Proof.
    intros S a sk e b k r r' an an' R R' O O'.
    destruct (rsa_hash (rsa_pub sk) (auth_pack e b k)) as [h|] eqn:Eh.
    - destruct (@obtain_ok S VError a sk e b k r h R Eh) as (x & X & _ & Nx). destruct (@obtain_ok S VError a sk e b k r' h R' Eh) as (y & Y & _ & Ny).
      congruence.
    - unfold obtain, auth_blind, auth_digest in O. rewrite Eh in O. discriminate O.
  Qed.

  Lemma mod_rel_prime x m : (0 < m)%Z -> rel_prime x m -> rel_prime (x mod m) m.
  Proof. intros M R. apply rel_prime_mod; assumption. Qed.
  Lemma pow_rel_prime x m k : (0 <= k)%Z -> rel_prime x m -> rel_prime (x ^ k) m.
  Proof. intros K R. apply rel_prime_sym. apply rel_prime_Zpower_r; [exact K|apply rel_prime_sym; exact R]. Qed.

  (** whatever the authenticator is asked to sign, every package with an invertible digest could have produced it,
      with exactly one blinding factor: what the authenticator sees does not single out a voter's package *)
  Theorem C64_blindness :
    rsa_scheme modulus exponent private ->
    forall sk r h h', let pk := rsa_pub sk in
    rel_prime r (modulus pk) -> rel_prime (number h) (modulus pk) -> rel_prime (number h') (modulus pk) ->
    exists r', (0 <= r' < modulus pk)%Z /\ rel_prime r' (modulus pk)
      /\ fst (rsa_blind pk r' h') = fst (rsa_blind pk r h)
      /\ forall r'', (0 <= r'' < modulus pk)%Z -> rel_prime r'' (modulus pk) ->
           fst (rsa_blind pk r'' h') = fst (rsa_blind pk r h) -> r'' = r'.
  Proof.
    intros S sk r h h' pk R H H'. pose proof (rs_key _ _ _ S sk) as K. fold pk in K.
    destruct (key_pos _ _ _ K) as (N1 & E1 & D1). set (n := modulus pk) in *. set (e := exponent pk) in *. set (d := private sk) in *.
    destruct (rel_prime_bezout _ _ H') as [u v B]. 
    (* u inverts h' *)
    assert (U : ((number h' * u) mod n = 1)%Z).
    { replace (number h' * u)%Z with (1 + (- v) * n)%Z by lia. rewrite Z_mod_plus_full. apply Z.mod_small. lia. }
    assert (Ru : rel_prime u n).
    { apply rel_prime_sym. apply bezout_rel_prime. apply Bezout_intro with (u := v) (v := number h'). lia. }
    set (t := ((u * number h) * r ^ e)%Z).
    assert (Rt : rel_prime t n).
    { apply rel_prime_sym. unfold t. apply rel_prime_mult; [apply rel_prime_mult|]; apply rel_prime_sym; auto.
      apply pow_rel_prime; [lia|exact R]. }
    exists (t ^ d mod n)%Z. split; [apply Z.mod_pos_bound; lia|].
    assert (R' : rel_prime (t ^ d mod n) n).
    { apply mod_rel_prime; [lia|]. apply pow_rel_prime; [lia|exact Rt]. }
    split; [exact R'|]. split.
    - apply (rs_canonical _ _ _ S). rewrite (proj1 (rs_blind _ _ _ S pk _ _ R)), (proj1 (rs_blind _ _ _ S pk _ _ R')).
      fold n e. rewrite <- Zmult_mod_idemp_r, <- Zpower_mod by lia. rewrite (de_id _ _ _ K), Zmult_mod_idemp_r.
      unfold t. replace (number h' * (u * number h * r ^ e))%Z with ((number h' * u) * (number h * r ^ e))%Z by ring.
      rewrite <- Zmult_mod_idemp_l, U, Z.mul_1_l. reflexivity.
    - intros r'' B'' R'' Q. apply (f_equal number) in Q.
      rewrite (proj1 (rs_blind _ _ _ S pk _ _ R)), (proj1 (rs_blind _ _ _ S pk _ _ R'')) in Q. fold n e in Q.
      assert (T : (r'' ^ e mod n = t mod n)%Z).
      { apply mod_cancel with (a := number h'); [lia|exact H'|]. rewrite Q. unfold t.
        replace (number h' * (u * number h * r ^ e))%Z with ((number h' * u) * (number h * r ^ e))%Z by ring.
        rewrite <- (Zmult_mod_idemp_l (number h' * u)), U, Z.mul_1_l. reflexivity. }
      rewrite <- (Z.mod_small r'' n) by exact B''. rewrite <- (ed_id _ _ _ K). rewrite Zpower_mod, T by lia.
      rewrite <- Zpower_mod by lia. reflexivity.
  Qed.
End Props.

(** ** Concrete case: the key n = 5 * 11, e = 3, d = 27 *)
Definition toy_n : Z := 55.
Definition toy_inv (r : Z) : Z :=
  match find (fun u => ((r * u) mod toy_n =? 1)%Z) (map Z.of_nat (seq 0 55)) with Some u => u | None => 0%Z end.
Definition out2 (z : Z) : bytes := be_list 2 (Z.to_N z).
Definition ToyR : Crypto := {|
  ed_pk_ok := @ed_pk_ok Toy; ed_sig_ok := @ed_sig_ok Toy; ed_secret := @ed_secret Toy;
  ed_public := @ed_public Toy; ed_sign := @ed_sign Toy; ed_verify := @ed_verify Toy;
  rsa_pk_ok := anyb;
  rsa_hash := fun _ m => Some (out2 (number (toy_hash m) mod toy_n));
  rsa_verify := fun _ h s => (number s ^ 3 mod toy_n =? number h)%Z;
  ct_ok := @ct_ok Toy; eg_pk_ok := @eg_pk_ok Toy; commit_ok := @commit_ok Toy; pkproof_ok := @pkproof_ok Toy;
  dshare_ok := @dshare_ok Toy; shproof_ok := @shproof_ok Toy; share_verify := @share_verify Toy;
  threshold_decrypt := @threshold_decrypt Toy; shuffle_verify := @shuffle_verify Toy |}.
Definition toy_pk : @AuthPublicKey ToyR := @any bytes [x37; x03].
Definition ToyB : @RsaBlind ToyR := {|
  rsa_secret := unit;
  rsa_pub := fun _ : unit => toy_pk;
  rsa_blind := fun _ r h => (out2 ((number h * r ^ 3) mod toy_n), out2 (toy_inv r));
  rsa_sign := fun _ m => Some (out2 (number m ^ 27 mod toy_n));
  rsa_unblind := fun _ s u => out2 ((number s * number u) mod toy_n) |}.

Lemma number_from_val l : forall a, number_from a l = (a * Z.of_N (pow256 (length l)) + Z.of_N (be_val l))%Z.
Proof.
  induction l as [|b l IH]; intros a; cbn [number_from be_val length]; [cbn; lia|].
  rewrite IH, pow256_S. lia.
Qed.
Lemma number_out2 z : (0 <= z < 65536)%Z -> number (out2 z) = z.
Proof.
  intros B. unfold number, out2. rewrite number_from_val, be_val_list.
  rewrite N.mod_small by (change (pow256 2) with 65536%N; lia). lia.
Qed.
Lemma toy_bound z : (0 <= z mod toy_n < 65536)%Z.
Proof. pose proof (Z.mod_pos_bound z toy_n) as B. unfold toy_n in *. lia. Qed.
Lemma toy_prime p : (1 < p)%Z -> forallb (fun x => negb (p mod x =? 0)%Z) (map Z.of_nat (seq 2 (Z.to_nat p - 2))) = true -> prime p.
Proof.
  intros P F. apply prime_alt. split; [exact P|]. intros x X D. rewrite forallb_forall in F.
  assert (I : In x (map Z.of_nat (seq 2 (Z.to_nat p - 2)))).
  { apply in_map_iff. exists (Z.to_nat x). rewrite in_seq. lia. }
  apply F in I. rewrite negb_true_iff, Z.eqb_neq in I. apply I. apply Z.mod_divide; [lia|exact D].
Qed.
Lemma toy_key : rsa_key toy_n 3 27.
Proof.
  exists 5%Z, 11%Z. split; [apply toy_prime; [lia|vm_compute; reflexivity]|]. split; [apply toy_prime; [lia|vm_compute; reflexivity]|].
  split; [lia|]. split; [reflexivity|]. split; [lia|]. split; [lia|]. split; [exists 20%Z|exists 8%Z]; reflexivity.
Qed.
Lemma toy_inv_ok r : rel_prime r toy_n -> (0 <= toy_inv r < 65536)%Z /\ ((r * toy_inv r) mod toy_n = 1)%Z.
Proof.
  intros R. unfold toy_inv. destruct (find _ _) as [u|] eqn:F.
  - apply find_some in F as [I E]. apply Z.eqb_eq in E. split; [|exact E].
    apply in_map_iff in I as (k & <- & I). apply in_seq in I. split; [lia|].
    apply Z.lt_trans with 55%Z; [|lia]. change 55%Z with (Z.of_nat 55). apply Nat2Z.inj_lt. exact (proj2 I).
  - exfalso. destruct (rel_prime_bezout _ _ R) as [u v B].
    assert (I : In (u mod toy_n)%Z (map Z.of_nat (seq 0 55))).
    { apply in_map_iff. exists (Z.to_nat (u mod toy_n)). pose proof (Z.mod_pos_bound u toy_n) as Q. unfold toy_n in *.
      rewrite in_seq. split; [lia|]. split; [lia|]. change (0 + 55)%nat with (Z.to_nat 55). lia. }
    pose proof (find_none _ _ F _ I) as N. cbn beta in N. rewrite Z.eqb_neq in N. apply N.
    rewrite Zmult_mod_idemp_r. replace (r * u)%Z with (1 + (- v) * toy_n)%Z by lia. rewrite Z_mod_plus_full. reflexivity.
Qed.
Lemma toy_scheme : @rsa_scheme ToyR ToyB (fun _ => toy_n) (fun _ => 3%Z) (fun _ => 27%Z).
Proof.
  split.
  - intros _. exact toy_key.
  - intros _. unfold toy_n. lia.
  - intros pk m h E. cbn [rsa_hash ToyR] in E. injection E as <-. rewrite number_out2 by apply toy_bound. apply Z.mod_pos_bound. reflexivity.
  - intros sk m _. eexists. split; [reflexivity|]. apply number_out2, toy_bound.
  - intros pk r h R. cbn [rsa_blind ToyB fst snd]. destruct (toy_inv_ok r R) as [B E]. rewrite !number_out2 by (apply toy_bound || exact B).
    split; [reflexivity|]. rewrite E. reflexivity.
  - intros pk r h r' h' E. cbn [rsa_blind ToyB fst] in *. rewrite !number_out2 in E by apply toy_bound. rewrite E. reflexivity.
  - intros pk s u. cbn [rsa_unblind ToyB]. apply number_out2, toy_bound.
  - intros pk h s _. cbn [rsa_verify ToyR]. apply Z.eqb_eq.
  - intros pk h s _ _. cbn [rsa_verify ToyR]. apply Z.eqb_eq.
Qed.

(** an exchange for one package with blinding factor 1234: accepted, and refused for another ballot key *)
Definition caseE : Identifier := election_build_id (arr_rep x11 15).
Definition caseB : rstring := lit "b1".
Definition caseK (b : byte) : @PublicKey ToyR := @any (arr 32) (key_of b).
Definition caseA : @Authenticator ToyR :=
  @mk_authenticator ToyR (arr_rep x55 16) (@mk_sub _ (nodup_keys rs_eqb) [(caseB, @rsa_pub ToyR ToyB tt)] eq_refl).
Example C52_case : exists an,
  @obtain ToyR ToyB VError 1234 caseA tt (@rsa_pub ToyR ToyB tt) caseE caseB (caseK x20) = Ok an
  /\ rel_prime 1234 toy_n
  /\ @auth_verify ToyR caseA caseE caseB (caseK x20) (@an_signature an) = Ok tt
  /\ @auth_verify ToyR caseA caseE caseB (caseK x21) (@an_signature an) = Err AuthSignatureVerificationFailed.
Proof.
  eexists. split; [vm_compute; reflexivity|]. split; [apply Zgcd_1_rel_prime; reflexivity|]. split; vm_compute; reflexivity.
Qed.
(** two different packages, blinded to the same bytes *)
Example C64_case : exists h h',
  @rsa_hash ToyR (@rsa_pub ToyR ToyB tt) (@auth_message ToyR caseE caseB (caseK x20)) = Some h
  /\ @rsa_hash ToyR (@rsa_pub ToyR ToyB tt) (@auth_message ToyR caseE caseB (caseK x22)) = Some h'
  /\ h <> h' /\ rel_prime (number h) toy_n /\ rel_prime (number h') toy_n
  /\ exists r', fst (@rsa_blind ToyR ToyB (@rsa_pub ToyR ToyB tt) r' h') = fst (@rsa_blind ToyR ToyB (@rsa_pub ToyR ToyB tt) 1234 h).
Proof.
  eexists. eexists. split; [reflexivity|]. split; [reflexivity|]. split; [intros Q; vm_compute in Q; discriminate Q|].
  split; [apply Zgcd_1_rel_prime; vm_compute; reflexivity|]. split; [apply Zgcd_1_rel_prime; vm_compute; reflexivity|].
  destruct (@C64_blindness ToyR ToyB _ _ _ toy_scheme tt 1234
     (out2 (number (toy_hash (@auth_message ToyR caseE caseB (caseK x20))) mod toy_n))
     (out2 (number (toy_hash (@auth_message ToyR caseE caseB (caseK x22))) mod toy_n))) as (r' & _ & _ & E & _).
  - apply Zgcd_1_rel_prime. reflexivity.
  - apply Zgcd_1_rel_prime. vm_compute. reflexivity.
  - apply Zgcd_1_rel_prime. vm_compute. reflexivity.
  - exists r'. exact E.
Qed.

Print Assumptions C52_blind_signature_verifies.
Print Assumptions C52_vote_authenticated.
Print Assumptions C52_one_package_partial.
Print Assumptions C52_new_authenticator.
Print Assumptions C52_last_key.
Print Assumptions C64_signature_fixed.
Print Assumptions C64_blindness.
