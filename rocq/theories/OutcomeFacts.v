(** * OutcomeFacts: an election run by honest participants can be replayed in identifier order. *)
From Verif Require Import Base BaseFacts Utf8 Cbor Ident BuildId IdentFacts Crypto Types Serde Store SpecStore StoreFacts
  Validate ValidateFacts SpecValid ValidFacts ValidFacts3 SpecHist HistFacts MixFacts Encrypt Trustee Tasks SpecTasks SpecService
  SpecThreshold Lagrange ThresholdFacts SpecRun RunFacts Exonum SpecLedger LedgerFacts SpecSerde SerdeFacts SpecCli CliFacts Audit SpecAudit AuditFacts SpecOutcome.
From Coq Require Import ZifyBool ZifyNat ZifyN Sorting.Permutation.
Open Scope list_scope.

Section Run.
  Context {C : Crypto} {TC : TCrypto} {K : Fld} {M : Mdl} (S : threshold_scheme K M).
  Context (DH : dh_agrees) (Op : gcm_opens) (Sc : scalar_faithful) (law : ed_sign_verifies).
  Context {R : Type} (eg : EGPublicKey -> R -> bytes -> Ciphertext * R) (En : encrypting S eg).
  Variables (dbg : bool) (el : ElectionTx) (T : people) (contests : list u32).
  Hypothesis SU : set_up el T contests.
  Hypothesis shv : el_mix_config el <> None -> shuffle_verifies.
  Notation e := (el_id el).
  Notation inside := (inside el).
  Notation honest := (SpecRun.honest eg dbg el T contests).

  Lemma inside_names h x : honest h -> history dbg h -> In x h -> inside x -> tx_election (s_tx x) = e.
  Proof.
    intros Ho Hh I Ins. destruct (s_tx x) as [t|t|t|t|t|t|t|t|t|t] eqn:Tx; cbn [tx_election].
    - pose proof (inside_election eg dbg el T contests h x t Ho Hh I Ins Tx) as ->. reflexivity.
    - destruct (inside_commitment eg dbg el T contests SU h x t Ho Hh I Ins Tx) as (p & _ & ->). reflexivity.
    - destruct (inside_share eg dbg el T contests SU h x t Ho Hh I Ins Tx) as [(p & _ & nonces & m & _ & ->) _]. reflexivity.
    - destruct (inside_pubkey S DH Op Sc eg dbg el T contests SU h x t Ho Hh I Ins Tx) as (p & shs & _ & _ & l & pf & _ & _ & ->). reflexivity.
    - destruct (inside_enckey S DH Op Sc eg dbg el T contests SU h x t Ho Hh I Ins Tx) as [-> _]. reflexivity.
    - destruct (inside_vote S DH Op Sc eg dbg el T contests SU h x t Ho Hh I Ins Tx) as (a & b & _ & V & _). apply (vo_election _ _ _ _ _ V).
    - destruct (inside_end S DH Op Sc eg dbg el T contests SU h x t Ho Hh I Ins Tx) as [E _]. exact E.
    - destruct (inside_mix S DH Op Sc eg dbg el T contests SU h x t Ho Hh I Ins Tx) as (_ & _ & _ & p & vs & rn & mp & _ & _ & _ & _ & _ & ->). reflexivity.
    - destruct (inside_partial S DH Op Sc eg dbg el T contests SU shv h x t Ho Hh I Ins Tx) as (_ & _ & q & row & _ & shs & l & ds & _ & _ & _ & _ & _ & ->). reflexivity.
    - destruct (inside_decryption S DH Op Sc eg dbg el T contests SU shv h x t Ho Hh I Ins Tx) as (E & _). exact E.
  Qed.
  Lemma pks_occupied h pks p : pks_done S el T h pks -> In p T -> occupied h (pubkey_build_id e (tr_index (fst p))).
  Proof.
    intros (shs & _ & F) Ip. destruct (DecryptFacts.Forall2_in_l _ _ _ _ F Ip) as (q & _ & _ & x & Ix & Ex & _). exists x. auto.
  Qed.
  Lemma apart_ids (a b : list STx) x y : NoDup (map s_id (a ++ b)) -> In x a -> In y b -> s_id x <> s_id y.
  Proof.
    rewrite map_app. intros Nd Ix Iy E. apply in_split in Ix as (a1 & a2 & ->). rewrite map_app in Nd. cbn [map] in Nd.
    rewrite <- app_assoc in Nd. apply NoDup_remove_2 in Nd. apply Nd. apply in_or_app. right. apply in_or_app. right.
    rewrite E. apply in_map, Iy.
  Qed.
  (** [E] selects the election and, of what is recorded, nothing else *)
  Lemma honest_orderly E h : honest h -> history dbg h -> (forall x, In x h -> mine E x -> inside x) -> orderly E h.
  Proof.
    intros Ho Hh Only.
    assert (Early : forall p x q, h = p ++ x :: q -> inside x -> honest (p ++ [x]) /\ history dbg (p ++ [x]) /\ In x (p ++ [x])).
    { intros p x q Eh Ins. assert (I : In x (p ++ [x])) by (apply in_or_app; right; left; reflexivity).
      replace (p ++ x :: q) with ((p ++ [x]) ++ q) in Eh by (rewrite <- app_assoc; reflexivity). rewrite Eh in Ho, Hh.
      split; [exact (honest_prefix eg dbg el T contests q _ x Ho I Ins)|]. split; [exact (hist_prefix dbg _ _ Hh)|exact I]. }
    constructor.
    - intros x I Mi. pose proof (Only x I Mi) as Ins. rewrite (inside_names h x Ho Hh I Ins). exact Ins.
    - intros x t I Mi Tx. pose proof (Only x I Mi) as Ins.
      destruct (inside_partial S DH Op Sc eg dbg el T contests SU shv h x t Ho Hh I Ins Tx) as (_ & _ & q & row & _ & shs & l & ds & _ & _ & _ & Iu & _ & ->).
      exact Iu.
    - intros x t I Mi Tx. pose proof (Only x I Mi) as Ins.
      destruct (inside_decryption S DH Op Sc eg dbg el T contests SU shv h x t Ho Hh I Ins Tx) as (E1 & _ & row & _ & Iu & _). rewrite E1. exact Iu.
    - intros p x q y Eh Iy Mi Ty Tyy Se.
      assert (Ix : In x h) by (rewrite Eh; apply in_or_app; right; left; reflexivity).
      pose proof (Only x Ix Mi) as Ins. destruct (Early p x q Eh Ins) as (Ho1 & Hh1 & I1).
      assert (Pk : exists pks, pks_done S el T (p ++ [x]) pks).
      { pose proof (inside_answer eg dbg el T contests (p ++ [x]) x Ho1 Hh1 I1 Ins) as An. unfold s_type in Ty.
        destruct (s_tx x) as [t|t|t|t|t|t|t|t|t|t] eqn:Tx; try (destruct Ty as [Ty|Ty]; discriminate Ty).
        - destruct (inside_enckey S DH Op Sc eg dbg el T contests SU _ x t Ho1 Hh1 I1 Ins Tx) as [_ Pk]. exact Pk.
        - destruct An as (h1 & h2 & E1 & Ho2 & Hh2 & An & _).
          destruct (ans_decryption S DH Op Sc eg dbg el T contests SU shv h1 x t Ho2 Hh2 An Tx) as [(pks & Pk) _]. rewrite E1.
          exists pks. apply pks_mono, Pk. }
      destruct Pk as (pks & Pk). assert (Iyh : In y h) by (rewrite Eh; apply in_or_app; right; right; exact Iy).
      assert (Insy : inside y) by (unfold SpecRun.inside; rewrite <- Se; exact Ins).
      unfold s_type in Tyy. destruct (s_tx y) as [t|t|t|t|t|t|t|t|t|t] eqn:Tx; try discriminate Tyy.
      destruct (inside_pubkey S DH Op Sc eg dbg el T contests SU h y t Ho Hh Iyh Insy Tx) as (p0 & shs & Ip & _ & l & pf & _ & _ & Et).
      destruct (pks_occupied _ _ p0 Pk Ip) as (z & Iz & Ez).
      apply (apart_ids (p ++ [x]) q z y); [|exact Iz|exact Iy|].
      + rewrite <- app_assoc. cbn [app]. rewrite <- Eh. apply (hist_nodup dbg h Hh).
      + rewrite Ez. unfold s_id. rewrite Tx, Et. reflexivity.
    - intros p x q y m Eh Iy Mi Tx Pv Ty Se.
      assert (Ix : In x h) by (rewrite Eh; apply in_or_app; right; left; reflexivity).
      pose proof (Only x Ix Mi) as Ins. destruct (Early p x q Eh Ins) as (Ho1 & Hh1 & I1).
      destruct (inside_mix S DH Op Sc eg dbg el T contests SU _ x m Ho1 Hh1 I1 Ins Tx) as (_ & Ed & _).
      assert (Hh2 : history dbg ((p ++ [x]) ++ q)) by (rewrite <- app_assoc; cbn [app]; rewrite <- Eh; exact Hh).
      apply (no_vote_after_end dbg _ _ e Hh2 Ed y Iy). split; [rewrite <- Se; exact Ins|].
      rewrite (hist_typed dbg h y Hh); [exact Ty|]. rewrite Eh. apply in_or_app. right. right. exact Iy.
    - intros x y v w Ix Iy Mi Se Tx Ty Eq. pose proof (Only x Ix Mi) as Ins.
      assert (Insy : inside y) by (unfold SpecRun.inside; rewrite <- Se; exact Ins).
      assert (Un : forall z u, In z h -> inside z -> s_tx z = XVote u -> in_range e TVote z
                /\ firstn 10 (arr_l (id_unique (s_id z))) = firstn 10 (arr_l (sv (vt_key u)))).
      { intros z u Iz Inz Tz. split.
        - split; [exact Inz|]. rewrite (hist_typed dbg h z Hh Iz). unfold s_type. rewrite Tz. reflexivity.
        - destruct (hist_accepted dbg h z Hh Iz) as (pre & post & _ & _ & _ & Va). apply (validate_iff _ _ (stored_holds pre)) in Va as (_ & _ & Va).
          rewrite Tz in Va. destruct Va as (el0 & _ & (_ & _ & U) & _). unfold s_id. rewrite Tz. cbn [tx_id]. rewrite U, firstn_firstn. reflexivity. }
      destruct (Un x v Ix Ins Tx) as [Rx Ux]. destruct (Un y w Iy Insy Ty) as [Ry Uy].
      apply (vote_ids_apart S DH Op Sc eg dbg el T contests SU h x y Ho Hh Ix Iy Rx Ry). congruence.
  Qed.

  (** *** all contests together *)
  Definition decrypted (h : list STx) : list DecryptionTx :=
    flat_map (fun x => match s_tx x with XDecryption d => if id_eqb (dc_election d) e then [d] else [] | _ => [] end) h.
  Lemma decryptions_split h c : decryptions_of el h c = filter (fun d => u_eqb (dc_contest d) c) (decrypted h).
  Proof.
    unfold decryptions_of, decrypted. induction h as [|x h IH]; [reflexivity|]. cbn [flat_map]. rewrite filter_app, <- IH. f_equal.
    destruct (s_tx x) as [t|t|t|t|t|t|t|t|t|t]; try reflexivity. destruct (id_eqb (dc_election t) e); [|reflexivity].
    cbn [andb filter]. destruct (u_eqb (dc_contest t) c); reflexivity.
  Qed.
  Lemma ballots_split h c : ballots el h c = filter (fun ev => u_eqb (ev_contest ev) c) (entries el h).
  Proof.
    unfold ballots, entries. induction (votes_of el h) as [|v vs IH]; [reflexivity|]. cbn [flat_map]. rewrite filter_app, IH. reflexivity.
  Qed.
End Run.

(** *** lists that agree key by key *)
Lemma filter_perm {X} (f : X -> bool) l : Permutation l (filter f l ++ filter (fun x => negb (f x)) l).
Proof.
  induction l as [|x l IH]; [constructor|]. cbn [filter]. destruct (f x); cbn [negb app]; [constructor; exact IH|].
  apply (Permutation_cons_app _ _ _ IH).
Qed.
Lemma split_keys {X} (key : X -> u32) ks : forall l, NoDup ks -> (forall x, In x l -> In (key x) ks) ->
  Permutation l (flat_map (fun k => filter (fun x => u_eqb (key x) k) l) ks).
Proof.
  induction ks as [|k ks IH]; intros l Nd Inc.
  - destruct l as [|x l]; [constructor|destruct (Inc x (or_introl eq_refl))].
  - inversion Nd as [|? ? N1 N2]; subst. cbn [flat_map]. etransitivity; [apply (filter_perm (fun x => u_eqb (key x) k))|].
    apply Permutation_app_head. set (l' := filter (fun x => negb (u_eqb (key x) k)) l).
    assert (P : Permutation l' (flat_map (fun k => filter (fun x => u_eqb (key x) k) l') ks)).
    { apply IH; [exact N2|]. intros x I. apply filter_In in I as [I B]. destruct (Inc x I) as [Ek|J]; [|exact J].
      exfalso. apply negb_true_iff in B. symmetry in Ek. apply u_eqb_eq in Ek. congruence. }
    enough (Eq : flat_map (fun k => filter (fun x => u_eqb (key x) k) l) ks = flat_map (fun k => filter (fun x => u_eqb (key x) k) l') ks)
      by (rewrite Eq; exact P). rewrite !flat_map_concat_map. f_equal. apply map_ext_in. intros k' Ik.
    unfold l'. clear -N1 Ik. symmetry. induction l as [|x l IHl]; [reflexivity|]. cbn [filter]. destruct (u_eqb (key x) k) eqn:B; cbn [negb filter].
    + apply u_eqb_eq in B. destruct (u_eqb (key x) k') eqn:B'; [|exact IHl]. apply u_eqb_eq in B'. exfalso. apply N1. rewrite <- B, B'. exact Ik.
    + rewrite IHl. reflexivity.
Qed.
Lemma forall2_filter {X Y} (P : X -> Y -> Prop) (f : X -> bool) l m : Forall2 P l m ->
  exists m', Forall2 P (filter f l) m' /\ m' = map snd (filter (fun p => f (fst p)) (combine l m)).
Proof.
  intros F. eexists. split; [|reflexivity]. induction F as [|x y l m Pxy F IH]; [constructor|]. cbn [filter combine fst].
  destruct (f x); cbn [map snd]; [constructor; [exact Pxy|exact IH]|exact IH].
Qed.
(** if the values agree for every key, they agree together *)
Lemma perm_by_key {X Y V} (kx : X -> u32) (ky : Y -> u32) (vx : X -> V) (vy : Y -> V) l m :
  (forall k, Permutation (map vx (filter (fun x => u_eqb (kx x) k) l)) (map vy (filter (fun y => u_eqb (ky y) k) m))) ->
  Permutation (map vx l) (map vy m).
Proof.
  intros P. pose proof (fun a b : u32 => reflect_dec _ _ (iff_reflect _ _ (iff_sym (@u_eqb_eq 4 a b)))) as Dec.
  set (ks := nodup Dec (map kx l ++ map ky m)).
  assert (Nd : NoDup ks) by apply NoDup_nodup.
  assert (Il : forall x, In x l -> In (kx x) ks) by (intros x I; apply nodup_In, in_or_app; left; apply in_map, I).
  assert (Im : forall y, In y m -> In (ky y) ks) by (intros y I; apply nodup_In, in_or_app; right; apply in_map, I).
  etransitivity; [apply Permutation_map, (split_keys kx ks l Nd Il)|].
  etransitivity; [|apply Permutation_map, Permutation_sym, (split_keys ky ks m Nd Im)].
  clearbody ks. clear -P. induction ks as [|k ks IH]; [constructor|]. cbn [flat_map]. rewrite !map_app. apply Permutation_app; [apply P|exact IH].
Qed.

(** *** a history that can be sent is accepted by a node, transaction by transaction *)
Section Send.
  Context {C : Crypto}.
  Definition sendable (x : STx) : Prop := small 127 (ser_stx x) /\ plain (s_tx x).
  Lemma sendable_norm x : sendable x -> norm_stx x = x.
  Proof. intros [_ P]. destruct x as [t s]. unfold norm_stx. cbn [s_tx s_sig] in *. rewrite norm_plain_id by exact P. reflexivity. Qed.
  Lemma accepted_all dbg l2 : forall l1 L, lwf L -> honest_ledger L -> decoded L = stored l1 -> history dbg (l1 ++ l2) -> Forall sendable l2 ->
    accepted dbg L (map into_env l2) = l2.
  Proof.
    induction l2 as [|x l2 IH]; intros l1 L W HL D Hh F; [reflexivity|]. inversion F as [|? ? Fx Fl]; subst.
    pose proof (hist_prefix dbg _ _ Hh) as Hh1. destruct (hist_at dbg l1 x l2 Hh) as (_ & Fr & V).
    pose proof (sendable_norm x Fx) as Nx. destruct Fx as [Sm Pl]. pose proof (env_carries x Sm) as Ca. rewrite Nx in Ca.
    assert (V' : verify_and_store dbg L (into_env x) = Ok (bt_insert L (id_to_string (s_id x)) (into_env x))).
    { apply (post_ok dbg L x _ Sm). split; [|split; [|reflexivity]].
      - apply (free_slot L (s_id x) W HL). rewrite D. intros (y & Iy & Ey). apply (hist_stored dbg l1 y Hh1) in Iy. exact (Fr y Iy Ey).
      - rewrite Nx. rewrite <- V. apply validate_same. apply (holds_same _ _ (stored l1)); [rewrite <- D; apply honest_holds; assumption|apply stored_holds]. }
    cbn [map accepted]. rewrite V'. unfold carries in Ca. rewrite Ca. f_equal.
    destruct (honest_step dbg L (into_env x) x _ l1 W HL (env_honest x Sm) Ca V' D Hh1) as (_ & HL' & D').
    apply (IH (l1 ++ [x])); [exact (lwf_store _ _ _ _ W V')|exact HL'|exact D'|rewrite <- app_assoc; exact Hh|exact Fl].
  Qed.
  Lemma sent_accepted dbg h : history dbg h -> Forall sendable h ->
    accepted dbg [] (map into_env h) = h /\ Forall SpecLedger.honest (map into_env h).
  Proof.
    intros Hh F. split.
    - apply (accepted_all dbg h [] []); [apply lwf_empty|intros k e []|reflexivity|exact Hh|exact F].
    - rewrite Forall_forall in *. intros en I. apply in_map_iff in I as (x & <- & I). apply env_honest. apply (F x I).
  Qed.
End Send.
