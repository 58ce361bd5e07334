(** * Props_Silence: C97 (nobody can keep the result of a closed election from being published). *)
From Verif Require Import Base BaseFacts Hex HexFacts Utf8 Cbor Ident BuildId IdentFacts Crypto Types Serde Store SpecStore StoreFacts Prost Validate ValidateFacts
  SpecValid ValidFacts ValidFacts2 ValidFacts3 SpecHist HistFacts DecryptFacts SpecDecrypt Trustee Tasks SpecService SpecBlock Props_Block SpecOrder Props_Order SpecSilence Toy Scene.
From Coq Require Import ZifyBool ZifyNat ZifyN Strings.String.
Open Scope list_scope.

(** the 256 greatest unique parts *)
Definition top (b : byte) : arr 16 := @arr_app 15 1 (arr_rep xff 15) (arr1 b).
Lemma top_l b : arr_l (top b) = repeat xff 15 ++ [b].
Proof. reflexivity. Qed.
Lemma ff_max x : byte_cmp xff x = Lt -> False.
Proof.
  intros H. assert (X : (match byte_cmp xff x with Lt => false | _ => true end) = true); [|rewrite H in X; discriminate X].
  apply (byte_sweep (fun x => match byte_cmp xff x with Lt => false | _ => true end)). vm_compute. reflexivity.
Qed.
Lemma nodup_bytes : NoDup all_bytes.
Proof. apply (NoDup_map_inv (fun b => N.to_nat (u8v b))). replace (map _ all_bytes) with (seq 0 256) by (vm_compute; reflexivity). apply seq_NoDup. Qed.
Lemma above_top n : forall b v, List.length v = S n -> lex (repeat xff n ++ [b]) v = Lt -> exists c, v = repeat xff n ++ [c] /\ c <> b.
Proof.
  induction n as [|n IH]; intros b [|x v] L H; try discriminate L; cbn [repeat app lex] in H.
  - destruct v; [|discriminate L]. exists x. split; [reflexivity|]. intros ->. rewrite byte_cmp_refl in H. discriminate H.
  - destruct (byte_cmp xff x) eqn:E.
    + apply byte_cmp_eq in E. subst x. cbn [List.length] in L. injection L as L. destruct (IH b v L H) as (c & -> & D). exists c. auto.
    + destruct (ff_max x E).
    + discriminate H.
Qed.

Section Last.
  Lemma first_same {A} (P : A -> Prop) l a b : first_with P l a -> first_with P l b -> a = b.
  Proof.
    intros (p & q & -> & Pa & Na) (p' & q' & E & Pb & Nb). revert p' q' E Nb. induction p as [|c p IH]; intros [|c' p'] q' E Nb; cbn [app] in E; injection E as -> E.
    - reflexivity.
    - destruct (Nb _ (or_introl eq_refl) Pa).
    - destruct (Na _ (or_introl eq_refl) Pb).
    - apply (IH (fun d I => Na d (or_intror I)) p' q' E). intros d I. apply Nb. right. exact I.
  Qed.
  Lemma last_split {A} (P : A -> Prop) p a q : P a -> (forall b, In b q -> ~ P b) -> last_with P (p ++ a :: q) a.
  Proof.
    intros Pa N. exists (rev q), (rev p). split; [rewrite rev_app_distr; cbn [rev]; rewrite <- app_assoc; reflexivity|]. split; [exact Pa|].
    intros b I. apply N, in_rev, I.
  Qed.
End Last.

Section Silence.
  Context {C : Crypto}.
  Hypothesis comb : combines_verified.
  Variable dbg : bool.

  Lemma shares_from_parts i pks parts trs l : shares_for i pks parts trs l -> forall j pf sh, In (j, pf, sh) l ->
    exists tr p k, In tr trs /\ tr_index tr = j /\ In p parts /\ pd_trustee p = j /\ last_with (fun k => kp_trustee k = j) pks k /\ kp_proof k = pf
      /\ nth_error (pd_shares p) i = Some sh.
  Proof.
    induction 1 as [|tr trs l _ _ IH|tr trs l p k s Hp Hk Hs _ IH]; intros j pf sh I; [destruct I| |].
    - destruct (IH _ _ _ I) as (tr' & R). exists tr'. destruct R as (p & k & J & R). exists p, k. split; [right; exact J|exact R].
    - destruct I as [E|I].
      + injection E as <- <- <-. exists tr, p, k. apply first_in in Hp as [Ip Ep]. apply in_rev in Ip. split; [left; reflexivity|]. auto 10.
      + destruct (IH _ _ _ I) as (tr' & p' & k' & J & R). exists tr', p', k'. split; [right; exact J|exact R].
  Qed.

  (** the key that counts for each trustee is one with the proof [pf] *)
  Definition overridden (el : ElectionTx) (pf : PubkeyProof) (h : list STx) : Prop :=
    forall tr pks k, In tr (el_trustees el) -> range_is (stored h) (el_id el) TKeyGenPublicKey XPublicKey pks ->
    last_with (fun k => kp_trustee k = tr_index tr) pks k -> kp_proof k = pf.

  Lemma overridden_silent h el pf x t : history dbg h -> at_id h (el_id el) (XElection el) -> (1 <= u8v (el_threshold el))%N -> keys_recorded el pf h -> overridden el pf h ->
    s_tx x = XDecryption t -> dc_election t = el_id el -> acceptable dbg h x -> dc_vote t = [].
  Proof.
    intros Hh At Th Kr Ov Tx Ee A. apply acceptable_iff in A as (_ & _ & O). rewrite Tx in O. cbn [ok_tx] in O.
    destruct O as (el' & row & pks & parts & At' & _ & Row & R & Pa & _ & (Ln & Dec)). rewrite Ee in *.
    assert (AtS : at_id (stored h) (el_id el) (XElection el)) by (destruct At as (z & I & Z); exists z; split; [apply (hist_stored dbg _ _ Hh), I|exact Z]).
    pose proof (at_unique dbg h _ _ _ Hh At' AtS) as E. injection E as ->.
    destruct (dc_vote t) as [|sel sels]; [reflexivity|exfalso]. destruct row as [|ct row]; [discriminate Ln|].
    destruct (Dec 0 ct sel eq_refl eq_refl) as (l & m & Sf & Td & _). apply comb in Td as (l' & Inc & Le & Ver).
    destruct l' as [|[[j pf'] sh] l']; [cbn [List.length] in Le; lia|]. pose proof (Ver j pf' sh (or_introl eq_refl)) as V. pose proof (Inc _ (or_introl eq_refl)) as Il.
    destruct (shares_from_parts _ _ _ _ _ Sf _ _ _ Il) as (tr & p & k & It & Ej & Ip & Ep & Lk & Ek & Sh). subst j.
    rewrite (Ov tr pks k It R Lk) in Ek. subst pf'.
    destruct (Forall2_in_r _ _ _ _ Pa Ip) as (i & _ & _ & Atp).
    assert (Atp' : at_id h (partial_slot t i) (XPartial p)).
    { destruct Atp as (z & I & Z). exists z. unfold partial_slot. rewrite Ee. split; [apply (hist_stored dbg _ _ Hh), I|exact Z]. }
    destruct (slot_partial dbg h t i p Hh (row_at_type _ _ _ _ _ _ Row) Atp') as (Eel & _ & Ei & _). rewrite Ee in Eel. clear Atp.
    destruct Atp' as (z & Iz & _ & Tz). destruct (hist_accepted dbg h z Hh Iz) as (a & b & Eh & Ha & _ & Vz).
    apply (partial_accepted dbg _ _ z p (stored_holds a) Tz) in Vz as (elp & row' & pk & _ & _ & _ & _ & _ & Atk & _ & _ & F2).
    assert (Sl : pubkey_build_id (pd_election p) (pd_trustee p) = pubkey_build_id (el_id el) (tr_index tr)).
    { unfold pubkey_build_id, id_new. rewrite Eel, Ep. reflexivity. }
    rewrite Sl in Atk. destruct (Kr tr It) as (k0 & Atk0 & Fo).
    assert (pk = k0).
    { assert (X : at_id (stored h) (pubkey_build_id (el_id el) (tr_index tr)) (XPublicKey pk)).
      { destruct Atk as (w & Iw & W). exists w. split; [|exact W]. apply (hist_stored dbg _ _ Hh). rewrite Eh. apply in_or_app. left. apply (hist_stored dbg _ _ Ha), Iw. }
      assert (Y : at_id (stored h) (pubkey_build_id (el_id el) (tr_index tr)) (XPublicKey k0)).
      { destruct Atk0 as (w & Iw & W). exists w. split; [apply (hist_stored dbg _ _ Hh), Iw|exact W]. }
      pose proof (at_unique dbg h _ _ _ Hh X Y) as E. injection E as E. exact E. }
    subst pk. apply nth_error_In in Sh. destruct (Forall2_in_l _ _ _ _ F2 Sh) as (ct' & _ & Vs).
    rewrite (Fo sh ct' ct Vs) in V. discriminate V.
  Qed.

  (** keys at the 256 greatest identifiers of the range are the ones that count, for ever *)
  Definition tops (e : Identifier) (pf : PubkeyProof) (h : list STx) : Prop :=
    forall b, exists k, at_id h (mk_id (id_election e) TKeyGenPublicKey (top b)) (XPublicKey k) /\ kp_trustee k = b /\ kp_proof k = pf.
  Lemma map_split {A B D} (f : A -> D) (g : B -> D) l : forall m p x q, map f l = map g m -> l = p ++ x :: q ->
    exists p' y q', m = p' ++ y :: q' /\ f x = g y /\ map f q = map g q'.
  Proof.
    intros m p. revert l m. induction p as [|c p IH]; intros l [|d m] x q E ->; cbn [app map] in E; try discriminate E; injection E as E1 E2.
    - exists [], d, m. auto.
    - destruct (IH _ m x q E2 eq_refl) as (p' & y & q' & -> & R). exists (d :: p'), y, q'. auto.
  Qed.
  Lemma tops_overridden h el pf : history dbg h -> tops (el_id el) pf h -> overridden el pf h.
  Proof.
    intros Hh Tp tr pks k It R Lk. destruct (Tp (tr_index tr)) as (kz & (z & Iz & Ez & Tz) & Bz & Pz). rewrite <- Pz. f_equal.
    set (L := listed (stored h) (el_id el) TKeyGenPublicKey) in *. unfold range_is in R. fold L in R.
    assert (J : In z L) by (apply listed_in; rewrite Ez; split; [apply (hist_stored dbg _ _ Hh), Iz|split; reflexivity]).
    apply in_split in J as (p & q & El). destruct (map_split _ _ _ _ _ _ _ R El) as (p' & y & q' & Ep & Ey & Eq). rewrite Tz in Ey. injection Ey as <-.
    refine (first_same _ _ _ _ Lk _). rewrite Ep. apply last_split; [exact Bz|].
    intros k' I E. assert (I' : In (XPublicKey k') (map s_tx q)) by (rewrite Eq; apply in_map, I). apply in_map_iff in I' as (w & Tw & Iw).
    assert (As : ascending L) by (apply listed_asc, stored_asc). rewrite El in As.
    assert (Lt : id_lt (s_id z) (s_id w)).
    { clear - As Iw. induction p as [|c p IH]; cbn [app] in As; [apply (asc_head _ _ _ As Iw)|apply IH, (asc_tail _ _ As)]. }
    assert (Lw : In w L) by (rewrite El; apply in_or_app; right; right; exact Iw). apply listed_in in Lw as (Sw & Rw1 & Rw2).
    unfold id_lt, id_cmp in Lt. rewrite Ez, Rw1, Rw2 in Lt. cbn [id_election id_type id_unique] in Lt. rewrite lex_refl, byte_cmp_refl, top_l in Lt.
    apply above_top in Lt as (c & Ec & Nc); [|apply arr_len].
    assert (Ew : s_id w = mk_id (id_election (el_id el)) TKeyGenPublicKey (top c)).
    { destruct (s_id w) as [we wt wu]. cbn [id_election id_type id_unique] in *. subst. f_equal. apply arr_ext. rewrite Ec. symmetry. apply top_l. }
    destruct (Tp c) as (kc & (v & Iv & Ev & Tv) & Bc & _). assert (v = w).
    { apply (hist_unique dbg h); [exact Hh|exact Iv|apply (hist_stored dbg _ _ Hh), Sw|congruence]. }
    subst v. rewrite Tw in Tv. injection Tv as <-. congruence.
  Qed.
  Lemma more_tops e pf h l : tops e pf h -> tops e pf (h ++ l).
  Proof. intros T b. destruct (T b) as (k & (x & I & X) & R). exists k. split; [exists x; split; [apply in_or_app; auto|exact X]|exact R]. Qed.

  (** from then on nothing is published *)
  Theorem C97_tops_silence : forall h l el pf, history dbg (h ++ l) -> at_id h (el_id el) (XElection el) -> (1 <= u8v (el_threshold el))%N ->
    keys_recorded el pf h -> tops (el_id el) pf h -> shows_nothing el l.
  Proof.
    intros h l el pf Hh At Th Kr Tp x t Ix Tx Ee. apply in_split in Ix as (a & b & ->). rewrite app_assoc in Hh. destruct (hist_at dbg _ _ _ Hh) as (Hp & _ & V).
    apply (overridden_silent (h ++ a) el pf x t); [exact Hp| |exact Th| | |exact Tx|exact Ee|exact V].
    - destruct At as (z & I & Z). exists z. split; [apply in_or_app; auto|exact Z].
    - intros tr It. destruct (Kr tr It) as (k & (z & I & Z) & F). exists k. split; [exists z; split; [apply in_or_app; auto|exact Z]|exact F].
    - apply tops_overridden; [exact Hp|apply more_tops, Tp].
  Qed.

  (** ** the attack *)
  Section Attack.
    Hypothesis S : ed_sign_verifies.
    Variables (sk : ed_secret) (i e : Identifier) (g : EGPublicKey) (pf : PubkeyProof).
    Definition many_seats : ElectionTx :=
      mk_election i (ed_public sk) (map (fun b => mk_trustee (ed_public sk) b (u_of 8 0) x00) all_bytes) x01 [] x00 None [] [] no_props.
    Definition stray (b : byte) : STx :=
      own_tx sk (XPublicKey (mk_pubkey (mk_id (id_election e) TKeyGenPublicKey (top b)) i b (ed_public sk) g pf)).
    Definition attack (bs : list byte) : list STx := own_tx sk (XElection many_seats) :: map stray bs.
    Lemma top_inj b c : top b = top c -> b = c.
    Proof. intros E. apply (f_equal (fun a => last (arr_l a) x00)) in E. exact E. Qed.
    Lemma attack_history h : history dbg h -> i = slot0 i TElection -> fresh h i ->
      (forall b, fresh h (mk_id (id_election e) TKeyGenPublicKey (top b))) ->
      forall bs, NoDup bs -> history dbg (h ++ attack bs).
    Proof.
      intros Hh Ei Fi Fb. assert (Ti : id_type i = TElection) by (rewrite Ei; reflexivity).
      intros bs. induction bs as [|b bs IH] using rev_ind; intros N.
      - apply own_accepted; [exact S|exact Hh|exact Fi|exact Ti|reflexivity|]. split; [exact Ei|]. split; vm_compute; discriminate.
      - apply NoDup_remove in N as [N1 N2]. rewrite app_nil_r in N1, N2. specialize (IH N1).
        unfold attack. rewrite map_app. cbn [map]. change (own_tx sk (XElection many_seats) :: map stray bs ++ [stray b]) with (attack bs ++ [stray b]).
        rewrite app_assoc. apply own_accepted; [exact S|exact IH| |reflexivity|reflexivity|].
        + intros z Iz. apply in_app_or in Iz as [Iz|[<-|Iz]]; [exact (Fb b z Iz)| |].
          * intros X. apply (f_equal id_type) in X. cbn [tx_id id_type] in X. change (id_type i = TKeyGenPublicKey) in X. rewrite Ti in X. discriminate X.
          * apply in_map_iff in Iz as (c & <- & Ic). intros X. apply (f_equal id_unique) in X. change (top c = top b) in X. apply top_inj in X. subst c. exact (N2 Ic).
        + exists many_seats. split.
          * exists (own_tx sk (XElection many_seats)). split; [apply (hist_stored dbg _ _ IH), in_or_app; right; left; reflexivity|split; reflexivity].
          * exists (mk_trustee (ed_public sk) b (u_of 8 0) x00). split; [|split; reflexivity].
            change (In (mk_trustee (ed_public sk) b (u_of 8 0) x00) (map (fun b => mk_trustee (ed_public sk) b (u_of 8 0) x00) all_bytes)).
            apply (in_map (fun b => mk_trustee (ed_public sk) b (u_of 8 0) x00)), all_bytes_complete.
    Qed.
    Lemma attack_tops h : tops e pf (h ++ attack all_bytes).
    Proof.
      intros b. eexists. split; [|split; [|]].
      - exists (stray b). split; [apply in_or_app; right; right; apply in_map, all_bytes_complete|]. split; reflexivity.
      - reflexivity.
      - reflexivity.
    Qed.
  End Attack.

  (** Anybody can keep the result of any election from being published, also after the voting has ended and every trustee has done its part:
      with an election of their own and 256 public keys of that election stored at the end of the range of the attacked one. *)
  Theorem C97_stranger_silences : ed_sign_verifies -> forall h el sk (mine : arr 15) (g : EGPublicKey) (pf : PubkeyProof),
    history dbg h -> at_id h (el_id el) (XElection el) -> (1 <= u8v (el_threshold el))%N -> keys_recorded el pf h ->
    fresh h (mk_id mine TElection (arr_rep x00 16)) -> (forall b, fresh h (mk_id (id_election (el_id el)) TKeyGenPublicKey (top b))) ->
    exists a, List.length a = 257 /\ (forall x, In x a -> by_owner sk x /\ named_election (s_tx x) <> Some (el_id el) /\ s_id x <> el_id el)
      /\ history dbg (h ++ a) /\ forall l, history dbg ((h ++ a) ++ l) -> shows_nothing el l.
  Proof.
    intros S h el sk mine g pf Hh At Th Kr Fi Fb. set (i := mk_id mine TElection (arr_rep x00 16)) in *.
    assert (Ni : i <> el_id el). { intros X. destruct At as (z & Iz & Ez & _). rewrite <- X in Ez. exact (Fi z Iz Ez). }
    assert (Te : id_type (el_id el) = TElection).
    { destruct At as (z & Iz & Ez & Tz). pose proof (hist_typed dbg h z Hh Iz) as T. rewrite Ez in T. unfold s_type in T. rewrite Tz in T. exact T. }
    exists (attack sk i (el_id el) g pf all_bytes). split; [reflexivity|]. split; [|split].
    - intros x [<-|Ix].
      + split; [apply own_is; [exact S|reflexivity]|]. split; [discriminate|exact Ni].
      + apply in_map_iff in Ix as (b & <- & _). split; [apply own_is; [exact S|reflexivity]|]. split; [intros X; injection X as X; exact (Ni X)|].
        intros X. apply (f_equal id_type) in X. rewrite Te in X. discriminate X.
    - apply attack_history; [exact S|exact Hh|reflexivity|exact Fi|exact Fb|]. apply nodup_bytes.
    - intros l Hl. apply (C97_tops_silence _ _ _ pf Hl).
      + destruct At as (z & I & Z). exists z. split; [apply in_or_app; auto|exact Z].
      + exact Th.
      + intros tr It. destruct (Kr tr It) as (k & (z & I & Z) & F). exists k. split; [exists z; split; [apply in_or_app; auto|exact Z]|exact F].
      + apply attack_tops.
  Qed.
End Silence.

(** true: while nobody records a public key in the range of the election, an acceptable decryption stays so *)
Theorem C97_kept_partial : forall {C : Crypto} dbg h ys x d, history dbg (h ++ ys) -> acceptable dbg h x -> s_tx x = XDecryption d ->
  (forall y, In y ys -> ~ in_range (dc_election d) TKeyGenPublicKey y) -> acceptable dbg (h ++ ys) x.
Proof.
  intros C dbg h ys x d Hh A T N. apply C96_stays; [exact Hh|exact A|]. intros y I D.
  destruct D as [v T' K|v T' K|k T' K|m T' P K|d' T' K]; rewrite T in T'; try discriminate T'. injection T' as <-. exact (N y I K).
Qed.

(** ** case *)
Lemma to_nat_le n m : (N.to_nat n <= m)%nat -> (n <= N.of_nat m)%N.
Proof. lia. Qed.
#[local] Existing Instance Toy.
Lemma distinct_le : forall l, distinct l <= List.length l.
Proof. induction l as [|b l IH]; [reflexivity|]. cbn [distinct List.length]. destruct (existsb _ _); lia. Qed.
Example C97_toy_combines : combines_verified.
Proof.
  intros k ct l m H. unfold threshold_decrypt, Toy in H. destruct (_ && _) eqn:E in H; [|discriminate H]. apply andb_prop in E as [E F].
  exists l. split; [apply incl_refl|]. split.
  - apply Nat.leb_le in E. pose proof (distinct_le (map (fun p => fst (fst p)) l)) as D. rewrite map_length in D. apply to_nat_le. exact (Nat.le_trans _ _ _ E D).
  - intros i pf sh I. exact (proj1 (forallb_forall _ _) F (i, pf, sh) I).
Qed.
Definition other_proof : PubkeyProof := any (CUint (u_of 8 99)).
Lemma other_foreign i : u8v i <> 99%N -> foreign other_proof (proof_of i).
Proof.
  intros N sh ct ct' H. cbn [share_verify Toy] in *. apply cval_eqb_eq in H. destruct (cval_eqb _ _) eqn:E; [|reflexivity].
  apply cval_eqb_eq in E. rewrite H in E. unfold toy_share in E. injection E as E _. cbn in E. exfalso. apply N.
  rewrite <- E. symmetry. apply N.mod_small. pose proof (u8v_lt i) as L. eapply N.lt_trans; [exact L|reflexivity].
Qed.
(** the voting of the scene has ended and both trustees have decrypted both votes *)
Definition done_plain : list STx := setup None ++ voting ++ firstn 5 ending_plain.
Definition freshtop (h : list STx) : bool :=
  forallb (fun x => negb (tt_eqb (id_type (s_id x)) TKeyGenPublicKey && bytes_eqb (firstn 15 (arr_l (id_unique (s_id x)))) (repeat xff 15))) h.
Lemma done_ok : checks true [] done_plain ms_empty && okb done_plain dec1 && freshtop done_plain = true.
Proof. vm_compute. reflexivity. Qed.
Lemma freshtop_fresh h e b : freshtop h = true -> fresh h (mk_id e TKeyGenPublicKey (top b)).
Proof.
  intros F x I E. apply (proj1 (forallb_forall _ _) F) in I. rewrite E in I. cbn [id_type id_unique] in I. rewrite top_l in I. discriminate I.
Qed.
Lemma done_keys : keys_recorded (election None) other_proof done_plain.
Proof.
  intros tr [<-|[<-|[]]].
  - exists (mk_pubkey (pubkey_build_id EID x01) EID x01 (pk_of x0a) egk (proof_of x01)). split; [|apply other_foreign; discriminate].
    exists (pubkey x0a x01). split; [do 5 right; left; reflexivity|split; reflexivity].
  - exists (mk_pubkey (pubkey_build_id EID x02) EID x02 (pk_of x0b) egk (proof_of x02)). split; [|apply other_foreign; discriminate].
    exists (pubkey x0b x02). split; [do 6 right; left; reflexivity|split; reflexivity].
Qed.
(** false: the voting has ended, every trustee has done its part and a decryption is about to be accepted; a stranger
    records 257 transactions, none of which names the election, and no selection is ever published *)
Theorem C97_published_refuted : exists h el x d sk a, history true h /\ at_id h (el_id el) (XElection el) /\ occupied h (slot0 (el_id el) TVotingEnd)
  /\ s_tx x = XDecryption d /\ dc_election d = el_id el /\ dc_vote d <> [] /\ fresh h (s_id x) /\ acceptable true h x
  /\ ed_public sk <> el_authority el /\ (forall tr, In tr (el_trustees el) -> tr_public_key tr <> ed_public sk)
  /\ (forall z, In z a -> by_owner sk z /\ named_election (s_tx z) <> Some (el_id el) /\ s_id z <> el_id el)
  /\ history true (h ++ a) /\ forall l, history true ((h ++ a) ++ l) -> shows_nothing el l.
Proof.
  destruct (three _ _ _ done_ok) as (A & B & F). pose proof (run_history _ _ A) as Hh.
  assert (At : at_id done_plain (el_id (election None)) (XElection (election None))) by (eexists; split; [left; reflexivity|split; reflexivity]).
  destruct (C97_stranger_silences C97_toy_combines true toy_ed_sign_verifies done_plain (election None) (key_of x77) (arr_rep x99 15) egk other_proof Hh At) as (a & _ & Own & Ha & Si).
  - vm_compute. discriminate.
  - exact done_keys.
  - intros z I E. assert (X : id_election (s_id z) = arr_rep x11 15).
    { unfold done_plain in I. cbn [setup voting ending_plain firstn app In] in I. repeat (destruct I as [<-|I]; [reflexivity|]). destruct I. }
    rewrite E in X. apply (f_equal (fun a => hd x00 (arr_l a))) in X. discriminate X.
  - intros b. apply freshtop_fresh, F.
  - eexists done_plain, (election None), dec1, _, (key_of x77), a. split; [exact Hh|]. split; [exact At|].
    split; [exists votingend; split; [do 10 right; left; reflexivity|reflexivity]|]. split; [reflexivity|]. split; [reflexivity|]. split; [discriminate|]. split.
    { intros z I E. assert (X : id_type (s_id z) <> TDecryption).
      { unfold done_plain in I. cbn [setup voting ending_plain firstn app In] in I. repeat (destruct I as [<-|I]; [discriminate|]). destruct I. }
      apply X. rewrite E. reflexivity. }
    split; [exact (proj1 (okb_acceptable _ _) B)|]. split; [intros X; apply (f_equal (fun k => hd x00 (arr_l (sv k)))) in X; discriminate X|].
    split; [intros tr [<-|[<-|[]]] X; apply (f_equal (fun k => hd x00 (arr_l (sv k)))) in X; discriminate X|]. split; [exact Own|]. split; [exact Ha|exact Si].
Qed.

Print Assumptions C97_tops_silence.
Print Assumptions C97_stranger_silences.
Print Assumptions C97_kept_partial.
Print Assumptions C97_published_refuted.
