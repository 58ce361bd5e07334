(** * Props_Seat: C95 (every part of the system gives a trustee the same place). *)
From Verif Require Import Base BaseFacts Utf8 Cbor Ident BuildId IdentFacts Crypto Types Serde Store SpecStore StoreFacts Prost Validate ValidateFacts
  SpecValid ValidFacts ValidFacts2 ValidFacts3 SpecHist HistFacts Trustee Tasks SpecTasks TasksFacts Setup SpecSetup Props_Setup SpecSeat Toy Scene ToyT.
From Coq Require Import ZifyBool ZifyNat ZifyN.
Open Scope list_scope.

Lemma find_first {A} (f : A -> bool) (P : A -> Prop) (H : forall a, f a = true <-> P a) l a :
  find f l = Some a <-> first_with P l a.
Proof.
  induction l as [|b l IH]; cbn [find].
  - split; [discriminate|]. intros (p & q & E & _). destruct p; discriminate.
  - destruct (f b) eqn:F.
    + split.
      * intros E. injection E as <-. exists [], l. split; [reflexivity|]. split; [apply H, F|]. intros c [].
      * intros ([|c p] & q & E & Pa & N); injection E as -> E; [reflexivity|]. destruct (N c (or_introl eq_refl)). apply H, F.
    + rewrite IH. split.
      * intros (p & q & -> & Pa & N). exists (b :: p), q. split; [reflexivity|]. split; [exact Pa|].
        intros c [<-|I]; [|exact (N c I)]. intros X. apply H in X. congruence.
      * intros ([|c p] & q & E & Pa & N); injection E as -> E.
        -- apply H in Pa. congruence.
        -- exists p, q. split; [exact E|]. split; [exact Pa|]. intros d I. apply N. right. exact I.
Qed.
Lemma first_rev {A} (P : A -> Prop) l a : first_with P (rev l) a <-> last_with P l a.
Proof.
  split; intros (p & q & E & Pa & N).
  - exists (rev q), (rev p). split; [|split; [exact Pa|intros b I; apply N, in_rev, I]].
    rewrite <- (rev_involutive l), E, rev_app_distr. cbn [rev]. rewrite <- app_assoc. reflexivity.
  - exists (rev q), (rev p). split; [|split; [exact Pa|intros b I; apply N, in_rev, I]].
    rewrite E, rev_app_distr. cbn [rev]. rewrite <- app_assoc. reflexivity.
Qed.
Lemma first_in {A} (P : A -> Prop) l a : first_with P l a -> In a l /\ P a.
Proof. intros (p & q & -> & Pa & _). split; [apply in_elt|exact Pa]. Qed.
Lemma last_in {A} (P : A -> Prop) l a : last_with P l a -> In a l /\ P a.
Proof. intros (p & q & -> & Pa & _). split; [apply in_elt|exact Pa]. Qed.
Lemma only_one {A B} (f : A -> B) l a b : NoDup (map f l) -> In a l -> In b l -> f a = f b -> a = b.
Proof.
  induction l as [|c l IH]; cbn [map]; intros N I J E; [destruct I|]. apply NoDup_cons_iff in N as [N1 N2].
  destruct I as [->|I], J as [->|J]; [reflexivity| | |exact (IH N2 I J E)].
  - destruct N1. rewrite E. apply in_map, J.
  - destruct N1. rewrite <- E. apply in_map, I.
Qed.
Lemma first_ex {A} (P : A -> Prop) (D : forall a, P a \/ ~ P a) l a : In a l -> P a -> exists b, first_with P l b.
Proof.
  induction l as [|c l IH]; intros I Pa; [destruct I|]. destruct (D c) as [X|X].
  - exists c, [], l. split; [reflexivity|]. split; [exact X|]. intros b [].
  - destruct I as [->|I]; [contradiction|]. destruct (IH I Pa) as (b & p & q & -> & Pb & N). exists b, (c :: p), q.
    split; [reflexivity|]. split; [exact Pb|]. intros d [<-|J]; [exact X|exact (N d J)].
Qed.

Section Props.
  Context {C : Crypto}.
  Lemma holder_iff k t : pk_eqb (tr_public_key t) k = true <-> holder k t.
  Proof. apply pk_eqb_eq. Qed.
  Lemma num_value (n : nat) : uv (u_of 8 (N.of_nat n)) = (N.of_nat n mod 2 ^ 64)%N.
  Proof. reflexivity. Qed.

  (** the library: the last place of the key, unless its number is 0 *)
  Theorem C95_library : forall E (el : ElectionTx) k t, @from_election_tx C E el k = Ok t <->
    exists u, last_with (holder k) (el_trustees el) u /\ tr_index u <> x00 /\ informed el u t.
  Proof.
    intros E el k t. unfold from_election_tx. destruct (find _ _) as [u|] eqn:F.
    - apply (find_first _ _ (holder_iff k)), first_rev in F.
      assert (U : forall u', last_with (holder k) (el_trustees el) u' -> u' = u).
      { intros u' L. apply first_rev, (find_first _ _ (holder_iff k)) in L. apply first_rev, (find_first _ _ (holder_iff k)) in F. congruence. }
      destruct (Byte.eqb (tr_index u) x00) eqn:Z.
      + apply Byte.byte_dec_bl in Z. split; [discriminate|]. intros (u' & L & N & _). apply U in L. subst u'. contradiction.
      + split.
        * intros X. injection X as <-. exists u. split; [exact F|]. split.
          -- intros Y. rewrite Y in Z. discriminate.
          -- split; [reflexivity|]. split; [reflexivity|]. split; [apply num_value|reflexivity].
        * intros (u' & L & N & I1 & I2 & I3 & I4). apply U in L. subst u'. f_equal. destruct t as [pk i n th].
          cbn [tr_public_key tr_index tr_num tr_threshold] in *. subst. f_equal. apply u_ext. rewrite num_value. symmetry. exact I3.
    - split; [discriminate|]. intros (u & L & _). apply first_rev, (find_first _ _ (holder_iff k)) in L. congruence.
  Qed.
  (** ... and it stops the program otherwise *)
  Theorem C95_library_stops : forall E (el : ElectionTx) k, (forall t, @from_election_tx C E el k <> Ok t) -> @from_election_tx C E el k = Panic PAssert.
  Proof.
    intros E el k H. unfold from_election_tx in *. destruct (find _ _) as [u|]; [|reflexivity].
    destruct (Byte.eqb _ _); [reflexivity|]. destruct (H _ eq_refl).
  Qed.

  Lemma full_find (el : ElectionTx) k : trustee_from_election el k =
    option_map (fun t => mk_trustee (tr_public_key t) (tr_index t) (u_of 8 (N.of_nat (List.length (el_trustees el)))) (el_threshold el))
      (find (fun t => pk_eqb (tr_public_key t) k) (el_trustees el)).
  Proof.
    unfold trustee_from_election, get_full_trustees. generalize (u_of 8 (N.of_nat (List.length (el_trustees el)))) as n. intros n.
    induction (el_trustees el) as [|t l IH]; [reflexivity|]. cbn [map find tr_public_key]. destruct (pk_eqb _ _); [reflexivity|exact IH].
  Qed.
  (** the nodes: the first place of the key, whatever its number *)
  Theorem C95_node : forall (el : ElectionTx) k t, trustee_from_election el k = Some t <->
    exists u, first_with (holder k) (el_trustees el) u /\ informed el u t.
  Proof.
    intros el k t. rewrite full_find. split.
    - destruct (find _ _) as [u|] eqn:F; [|discriminate]. intros X. injection X as <-. apply (find_first _ _ (holder_iff k)) in F.
      exists u. split; [exact F|]. split; [reflexivity|]. split; [reflexivity|]. split; [apply num_value|reflexivity].
    - intros (u & F & I1 & I2 & I3 & I4). apply (find_first _ _ (holder_iff k)) in F. rewrite F. cbn [option_map]. f_equal. destruct t as [pk i n th].
      cbn [tr_public_key tr_index tr_num tr_threshold] in *. subst. f_equal. apply u_ext. rewrite num_value. symmetry. exact I3.
  Qed.
  (** the checks: the first place with a number *)
  Theorem C95_by_number : forall (el : ElectionTx) i u, get_trustee el i = Some u <-> first_with (numbered i) (el_trustees el) u.
  Proof.
    intros el i u. apply find_first. intros t. unfold numbered. split; [intros H; symmetry; apply Byte.byte_dec_bl, H|intros ->; apply Byte.byte_dec_lb; reflexivity].
  Qed.

  (** with different keys and no number 0 the library and the nodes agree; with different numbers the checks do too *)
  Theorem C95_agree_partial : forall E (el : ElectionTx), NoDup (map tr_public_key (el_trustees el)) ->
    (forall t, In t (el_trustees el) -> tr_index t <> x00) ->
    (forall k t, @from_election_tx C E el k = Ok t <-> trustee_from_election el k = Some t)
    /\ (NoDup (map tr_index (el_trustees el)) -> forall k t, trustee_from_election el k = Some t ->
         exists u, get_trustee el (tr_index t) = Some u /\ informed el u t).
  Proof.
    intros E el N Z. split.
    - intros k t. rewrite C95_library, C95_node. split.
      + intros (u & L & _ & I). exists u. split; [|exact I]. destruct (last_in _ _ _ L) as [J H].
        destruct (first_ex (holder k) (fun a => match pk_eqb (tr_public_key a) k as b return pk_eqb (tr_public_key a) k = b -> _ with
          | true => fun e => or_introl (proj1 (holder_iff k a) e)
          | false => fun e => or_intror (fun h => eq_ind true (fun b => if b then True else False) Logic.I false (eq_trans (eq_sym (proj2 (holder_iff k a) h)) e)) end eq_refl)
          _ _ J H) as (v & F).
        destruct (first_in _ _ _ F) as [J' H']. assert (v = u) as -> by (apply (only_one _ _ _ _ N J' J); congruence). exact F.
      + intros (u & F & I). exists u. destruct (first_in _ _ _ F) as [J H]. split; [|split; [exact (Z u J)|exact I]].
        destruct F as (p & q & E' & _ & _). exists p, q. split; [exact E'|]. split; [exact H|]. intros b B Hb.
        rewrite E', map_app in N. cbn [map] in N. apply NoDup_remove_2 in N. apply N, in_or_app. right. rewrite H, <- Hb. apply in_map, B.
    - intros NI k t F. apply C95_node in F as (u & F & I). exists u. split; [|exact I]. apply C95_by_number.
      destruct (first_in _ _ _ F) as [J H]. destruct F as (p & q & E' & _ & _). exists p, q. split; [exact E'|].
      destruct I as (_ & I2 & _). split; [symmetry; exact I2|]. intros b B Hb. rewrite E', map_app in NI. cbn [map] in NI.
      apply NoDup_remove_2 in NI. apply NI, in_or_app. left. rewrite <- I2, <- Hb. apply in_map, B.
  Qed.

  Context {TC : TCrypto}.
  (** if one key holds two places, nobody commits for the second, and no node ever makes a share *)
  Theorem C95_two_places_stuck : forall dbg h el c sk r l,
    history dbg h -> at_id h (el_id el) (XElection el) -> two_places el -> own_places el h -> kc_election c = el_id el ->
    process_keygen_commitment sk r (ms_store (ms_from h)) c = Ok l -> l = [].
  Proof.
    intros dbg h el c sk r l Hh At (p & t & q & u & w & Et & Ek) Own Ec P. pose proof (stored_holds h) as H.
    assert (At' : at_id (stored h) (el_id el) (XElection el)).
    { destruct At as (x & I & E & T). exists x. split; [apply (hist_stored dbg); assumption|auto]. }
    unfold process_keygen_commitment in P. rewrite Ec in P. pose proof (proj2 (t_election_iff _ _ H (el_id el) el) At') as Te. rewrite Te in P. cbn [bind] in P.
    destruct (trustee_from_election el (node_key sk)); [|congruence]. apply bind_ok in P as (cs & R & P).
    apply (t_multiple_iff _ _ H _ _ _ _ _ as_commitment_iff) in R.
    assert (Lt : List.length cs < List.length (el_trustees el)); [|destruct (Nat.eqb_spec (List.length cs) (List.length (el_trustees el))); [lia|congruence]].
    set (L := listed (stored h) (el_id el) TKeyGenCommitment) in *.
    assert (F : forall x, In x L -> exists a, s_tx x = XCommitment a /\ s_id x = commitment_build_id (el_id el) (kc_trustee a)
       /\ exists u, first_with (holder (kc_public a)) (el_trustees el) u /\ kc_trustee a = tr_index u).
    { intros x I. assert (J : In (s_tx x) (map XCommitment cs)) by (unfold range_is in R; fold L in R; rewrite <- R; apply in_map, I).
      apply in_map_iff in J as (a & Ea & _). apply listed_in in I as (I & Ie & _). apply (hist_stored dbg _ _ Hh) in I.
      destruct (Own x a I (eq_sym Ea) Ie) as (_ & B & D). eauto 6. }
    assert (N : NoDup (map kc_trustee cs)).
    { set (g := fun t : Tx => match t with XCommitment a => kc_trustee a | _ => x00 end).
      replace (map kc_trustee cs) with (map (fun x => g (s_tx x)) L).
      - apply (map_nodup_inv s_id).
        + apply asc_nodup, listed_asc, stored_asc.
        + intros x y X Y E. destruct (F x X) as (a & Ta & Ia & _), (F y Y) as (b & Tb & Ib & _). rewrite Ta, Tb in E. cbn [g] in E. congruence.
      - rewrite <- (map_map s_tx g). unfold range_is in R. fold L in R. rewrite R, map_map. reflexivity. }
    assert (J : incl (map kc_trustee cs) (map tr_index (p ++ t :: q ++ w))).
    { intros i I. apply in_map_iff in I as (a & <- & Ia).
      assert (J : In (XCommitment a) (map s_tx L)) by (unfold range_is in R; fold L in R; rewrite R; apply in_map, Ia).
      apply in_map_iff in J as (x & Tx & X). destruct (F x X) as (a' & Ta & _ & v & (p' & q' & E' & Hv & Nv) & Kv).
      rewrite Tx in Ta. injection Ta as <-. rewrite Kv. apply in_map.
      assert (V : In v (p ++ t :: q ++ u :: w)) by (rewrite <- Et, E'; apply in_elt).
      assert (NE : v = u -> In v (p ++ t :: q ++ w) \/ In t p').
      { intros ->. rewrite Et in E'. clear - E'. revert p' E'. induction p as [|b p IH]; intros [|b' p'] E'; cbn [app] in *.
        - injection E' as <- _. left. left. reflexivity.
        - injection E' as <- _. right. left. reflexivity.
        - injection E' as <- _. left. left. reflexivity.
        - injection E' as -> E'. destruct (IH _ E') as [X|X]; [left; right; exact X|right; right; exact X]. }
      rewrite in_app_iff in V |- *. cbn [In] in *. rewrite in_app_iff in V |- *. cbn [In] in V.
      destruct V as [V|[V|[V|[V|V]]]]; auto. destruct (NE (eq_sym V)) as [X'|X'].
      - rewrite in_app_iff in X'. cbn [In] in X'. rewrite in_app_iff in X'. tauto.
      - destruct (Nv t X'). subst v. unfold holder in *. congruence. }
    apply NoDup_incl_length in J; [|exact N]. rewrite !map_length in J. rewrite Et. rewrite !app_length in *. cbn [List.length] in *.
    rewrite !app_length in *. cbn [List.length]. lia.
  Qed.
End Props.

(** ** cases *)
Section Case.
  Local Existing Instance Toy.
  Local Existing Instance ToyT.
  Definition el2 : ElectionTx :=
    mk_election EID (pk_of x01) [T x0a x01; T x0b x02; T x0a x03; T x0c x00] x02 [] x00 None [] [contest0] no_props.
  Definition com2 : STx := match process_election (key_of x0a) el2 with Ok [x] => x | _ => votingend end.
  Definition h2 : list STx := [sgn x01 (XElection el2); com2].
  Definition facts2 : bool :=
    checks true [] h2 ms_empty
    && match @from_election_tx _ unit el2 (pk_of x0a), trustee_from_election el2 (pk_of x0a) with
       | Ok t, Some t' => Byte.eqb (tr_index t) x03 && Byte.eqb (tr_index t') x01 | _, _ => false end
    && match @from_election_tx _ unit el2 (pk_of x0c), trustee_from_election el2 (pk_of x0c) with
       | Panic _, Some t' => Byte.eqb (tr_index t') x00 | _, _ => false end
    && match s_tx com2 with
       | XCommitment c => id_eqb (kc_election c) EID && id_eqb (s_id com2) (commitment_build_id EID (kc_trustee c)) && Byte.eqb (kc_trustee c) x01
                          && pk_eqb (kc_public c) (pk_of x0a)
       | _ => false end.
  Lemma facts2_ok : facts2 = true.
  Proof. vm_compute. reflexivity. Qed.

  (** false: a recorded election in which the library and the node take different places for one key, and in which
      the node acts where the library stops *)
  Theorem C95_same_place_refuted : exists h el k k', history true h /\ at_id h (el_id el) (XElection el)
    /\ (exists t t', @from_election_tx _ unit el k = Ok t /\ trustee_from_election el k = Some t' /\ tr_index t <> tr_index t')
    /\ (exists t', trustee_from_election el k' = Some t' /\ exists p, @from_election_tx _ unit el k' = Panic p).
  Proof.
    pose proof facts2_ok as F. unfold facts2 in F. apply andb_prop in F as [F _]. apply andb_prop in F as [F F3]. apply andb_prop in F as [F1 F2].
    exists h2, el2, (pk_of x0a), (pk_of x0c). split; [apply run_history, F1|].
    split; [exists (sgn x01 (XElection el2)); split; [left; reflexivity|split; reflexivity]|]. split.
    - destruct (from_election_tx el2 (pk_of x0a)) as [t| |]; try discriminate F2. destruct (trustee_from_election el2 (pk_of x0a)) as [t'|]; [|discriminate F2].
      apply andb_true_iff in F2 as [A B]. apply Byte.byte_dec_bl in A, B. exists t, t'. rewrite A, B. split; [reflexivity|]. split; [reflexivity|discriminate].
    - destruct (from_election_tx el2 (pk_of x0c)) as [| |pa]; try discriminate F3. destruct (trustee_from_election el2 (pk_of x0c)) as [t'|]; [|discriminate F3].
      exists t'. split; [reflexivity|]. exists pa. reflexivity.
  Qed.
  Example C95_two_places_case : history true h2 /\ at_id h2 (el_id el2) (XElection el2) /\ two_places el2 /\ own_places el2 h2.
  Proof.
    pose proof facts2_ok as F. unfold facts2 in F. apply andb_prop in F as [F F4]. apply andb_prop in F as [F _]. apply andb_prop in F as [F1 _].
    split; [apply run_history, F1|]. split; [exists (sgn x01 (XElection el2)); split; [left; reflexivity|split; reflexivity]|].
    split; [exists [], (T x0a x01), [T x0b x02], (T x0a x03), [T x0c x00]; split; reflexivity|].
    intros x t [<-|[<-|[]]] Tx _; [discriminate|]. rewrite Tx in F4. rewrite !andb_true_iff in F4. destruct F4 as (((A & B) & D) & E).
    apply id_eqb_eq in A, B. apply Byte.byte_dec_bl in D. apply pk_eqb_eq in E. split; [exact A|]. split; [exact B|].
    exists (T x0a x01). split; [|exact D]. exists [], [T x0b x02; T x0a x03; T x0c x00]. split; [reflexivity|]. split; [unfold holder; rewrite E; reflexivity|intros b []].
  Qed.
  (** the election of the scenes has different keys and numbers *)
  Example C95_agree_case : NoDup (map tr_public_key (el_trustees (election None))) /\ NoDup (map tr_index (el_trustees (election None)))
    /\ (forall t, In t (el_trustees (election None)) -> tr_index t <> x00)
    /\ exists t, trustee_from_election (election None) (pk_of x0b) = Some t /\ tr_index t = x02.
  Proof.
    split; [|split; [|split]].
    - repeat constructor; cbn; intros H; repeat (destruct H as [H|H]); try discriminate H; auto.
    - repeat constructor; cbn; intuition discriminate.
    - intros t [<-|[<-|[]]]; discriminate.
    - eexists. split; reflexivity.
  Qed.
End Case.

Print Assumptions C95_library.
Print Assumptions C95_library_stops.
Print Assumptions C95_node.
Print Assumptions C95_by_number.
Print Assumptions C95_agree_partial.
Print Assumptions C95_two_places_stuck.
Print Assumptions C95_same_place_refuted.
