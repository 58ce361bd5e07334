(** * StoreFacts: [BTreeMap] and [MemStore] refine the specification of SpecStore.v. *)
From Verif Require Import Base BaseFacts Hex HexFacts Utf8 Cbor Ident BuildId IdentFacts Crypto Types Serde Store
  SpecStore Prost Validate ValidateFacts.
From Coq Require Import Sorting.Sorted.
Open Scope list_scope.

(** ** BTreeMap *)
Section BT.
  Context {V : Type}.
  Implicit Types (m : btree V) (k : bytes) (v : V).
  Definition key_lt (p q : bytes * V) : Prop := blt (fst p) (fst q).
  Definition bt_sorted m : Prop := StronglySorted key_lt m.

  Lemma bt_get_none_lt m k : Forall (fun p => blt k (fst p)) m -> bt_get m k = None.
  Proof.
    induction 1 as [|[k' v'] m H _ IH]; [reflexivity|]. cbn [bt_get fst] in *.
    destruct (bytes_eqb k k') eqn:E; [|exact IH]. apply bytes_eqb_eq in E. subst. now apply blt_irrefl in H.
  Qed.

  Lemma bt_insert_in m k v p : In p (bt_insert m k v) -> p = (k, v) \/ In p m.
  Proof.
    induction m as [|[k' v'] m IH]; cbn [bt_insert].
    - intros [<-|[]]. auto.
    - destruct (lex k k'); cbn [In]; intros H; intuition.
  Qed.
  Lemma bt_insert_sorted m k v : bt_sorted m -> bt_sorted (bt_insert m k v).
  Proof.
    induction m as [|[k' v'] m IH]; intros H; cbn [bt_insert].
    - repeat constructor.
    - inversion H as [|? ? Hm Hf]; subst. destruct (lex k k') eqn:E.
      + apply lex_eq in E. subst k'. constructor; [exact Hm|]. eapply Forall_impl; [|exact Hf]. auto.
      + constructor; [exact H|]. constructor; [exact E|].
        eapply Forall_impl; [|exact Hf]. intros q Hq. exact (blt_trans _ _ _ E Hq).
      + constructor; [apply IH, Hm|]. apply Forall_forall. intros q Hq.
        apply bt_insert_in in Hq as [->|Hq].
        * apply lex_gt_lt in E. exact E.
        * rewrite Forall_forall in Hf. auto.
  Qed.
  Lemma bt_get_insert m k v k' :
    bt_get (bt_insert m k v) k' = if bytes_eqb k' k then Some v else bt_get m k'.
  Proof.
    induction m as [|[k1 v1] m IH]; cbn [bt_insert bt_get]; [reflexivity|].
    destruct (lex k k1) eqn:E; cbn [bt_get].
    - apply lex_eq in E. subst k1. destruct (bytes_eqb k' k); reflexivity.
    - reflexivity.
    - rewrite IH. destruct (bytes_eqb k' k1) eqn:E1; [|reflexivity].
      apply bytes_eqb_eq in E1. subst k1. destruct (bytes_eqb k' k) eqn:E2; [|reflexivity].
      apply bytes_eqb_eq in E2. subst. rewrite lex_refl in E. discriminate.
  Qed.
  Lemma bt_get_in m k v : bt_sorted m -> (bt_get m k = Some v <-> In (k, v) m).
  Proof.
    induction m as [|[k1 v1] m IH]; intros H; cbn [bt_get In]; [split; [discriminate|tauto]|].
    inversion H as [|? ? Hm Hf]; subst. destruct (bytes_eqb k k1) eqn:E.
    - apply bytes_eqb_eq in E. subst k1. split.
      + intros X. injection X as ->. auto.
      + intros [X|X]; [congruence|]. rewrite Forall_forall in Hf. apply Hf in X. now apply blt_irrefl in X.
    - rewrite IH by exact Hm. split; auto. intros [X|X]; [|exact X].
      injection X as <- <-. rewrite bytes_eqb_refl in E. discriminate.
  Qed.
  (** inserting a fresh key keeps all entries *)
  Lemma bt_insert_incl m k v p : bt_get m k = None -> In p m -> In p (bt_insert m k v).
  Proof.
    induction m as [|[k' v'] m IH]; cbn [bt_insert bt_get In]; [tauto|].
    destruct (bytes_eqb k k') eqn:E; [discriminate|]. intros Hn [H|H].
    - destruct (lex k k') eqn:F; cbn [In]; auto. apply lex_eq in F. subst. rewrite bytes_eqb_refl in E. discriminate.
    - destruct (lex k k') eqn:F; cbn [In]; auto. 
  Qed.
  Lemma bt_insert_has m k v : In (k, v) (bt_insert m k v).
  Proof.
    induction m as [|[k' v'] m IH]; cbn [bt_insert]; [left; reflexivity|].
    destruct (lex k k'); cbn [In]; auto.
  Qed.
End BT.

(** ** lists ordered by identifiers *)
Section Facts.
  Context {C : Crypto}.

  Lemma id_lt_irrefl a : ~ id_lt a a.
  Proof. unfold id_lt. rewrite id_cmp_string, lex_refl. discriminate. Qed.
  Lemma id_lt_trans a b c : id_lt a b -> id_lt b c -> id_lt a c.
  Proof. unfold id_lt. rewrite !id_cmp_string. apply lex_lt_trans. Qed.
  Lemma id_le_refl a : id_le a a.
  Proof. unfold id_le. rewrite id_cmp_string, lex_refl. discriminate. Qed.

  Lemma asc_tail x L : ascending (x :: L) -> ascending L.
  Proof. intros H. inversion H; assumption. Qed.
  Lemma asc_head x L y : ascending (x :: L) -> In y L -> id_lt (s_id x) (s_id y).
  Proof. intros H Hy. inversion H as [|? ? _ Hf]; subst. rewrite Forall_forall in Hf. auto. Qed.
  Lemma asc_filter f L : ascending L -> ascending (filter f L).
  Proof.
    induction L as [|x L IH]; intros H; [constructor|]. inversion H as [|? ? Hm Hf]; subst.
    cbn [filter]. destruct (f x); [|exact (IH Hm)]. constructor; [exact (IH Hm)|].
    apply Forall_forall. intros y Hy. apply filter_In in Hy as [Hy _]. rewrite Forall_forall in Hf. auto.
  Qed.
  Lemma asc_unique L x y : ascending L -> In x L -> In y L -> s_id x = s_id y -> x = y.
  Proof.
    induction L as [|z L IH]; intros H; [intros []|]. intros [->|Hx] [->|Hy] E; auto.
    - pose proof (asc_head _ _ _ H Hy) as B. rewrite E in B. now apply id_lt_irrefl in B.
    - pose proof (asc_head _ _ _ H Hx) as B. rewrite E in B. now apply id_lt_irrefl in B.
    - apply IH; auto. eapply asc_tail; eauto.
  Qed.
  Lemma asc_nodup L : ascending L -> NoDup (map s_id L).
  Proof.
    induction L as [|x L IH]; intros H; cbn [map]; constructor.
    - intros Hin. apply in_map_iff in Hin as (y & E & Hy). pose proof (asc_head _ _ _ H Hy) as B.
      rewrite E in B. now apply id_lt_irrefl in B.
    - apply IH. eapply asc_tail; eauto.
  Qed.
  (** two ascending lists with the same elements are equal *)
  Lemma asc_ext L M : ascending L -> ascending M -> (forall x, In x L <-> In x M) -> L = M.
  Proof.
    revert M. induction L as [|x L IH]; intros [|y M] HL HM H; auto.
    - exfalso. apply (H y). left; reflexivity.
    - exfalso. apply (H x). left; reflexivity.
    - assert (x = y).
      { destruct (proj1 (H x) (or_introl eq_refl)) as [E|E]; [auto|].
        destruct (proj2 (H y) (or_introl eq_refl)) as [F|F]; [auto|].
        pose proof (asc_head _ _ _ HL F) as A. pose proof (asc_head _ _ _ HM E) as B.
        exfalso. apply (id_lt_irrefl (s_id x)). exact (id_lt_trans _ _ _ A B). }
      subst y. f_equal. apply IH; [eapply asc_tail; eauto..|]. intros z. split; intros Hz.
      + destruct (proj1 (H z) (or_intror Hz)) as [E|E]; [|exact E]. subst.
        pose proof (asc_head _ _ _ HL Hz) as B. now apply id_lt_irrefl in B.
      + destruct (proj2 (H z) (or_intror Hz)) as [E|E]; [|exact E]. subst.
        pose proof (asc_head _ _ _ HM Hz) as B. now apply id_lt_irrefl in B.
  Qed.

  Lemma entry_in L i x : ascending L -> (entry L i = Some x <-> In x L /\ s_id x = i).
  Proof.
    intros H. unfold entry. split.
    - intros E. apply find_some in E as [A B]. apply id_eqb_eq in B. auto.
    - intros [Hx Hi]. destruct (find _ L) as [y|] eqn:E.
      + apply find_some in E as [Hy B]. apply id_eqb_eq in B. f_equal. apply (asc_unique L _ _ H); congruence.
      + pose proof (find_none _ _ E _ Hx) as B. cbn in B. apply id_eqb_neq in B. congruence.
  Qed.
  Lemma entry_none L i : entry L i = None <-> forall x, In x L -> s_id x <> i.
  Proof.
    unfold entry. split.
    - intros E x Hx. pose proof (find_none _ _ E _ Hx) as B. now apply id_eqb_neq in B.
    - intros H. destruct (find _ L) as [y|] eqn:E; [|reflexivity].
      apply find_some in E as [Hy B]. apply id_eqb_eq in B. now apply H in B.
  Qed.
  Lemma entry_some_in L i x : entry L i = Some x -> In x L /\ s_id x = i.
  Proof. intros E. apply find_some in E as [A B]. apply id_eqb_eq in B. auto. Qed.
  Lemma listed_in L e t x :
    In x (listed L e t) <-> In x L /\ id_election (s_id x) = id_election e /\ id_type (s_id x) = t.
  Proof. unfold listed. rewrite filter_In, andb_true_iff, arr_eqb_eq, tt_eqb_eq. tauto. Qed.
  Lemma listed_asc L e t : ascending L -> ascending (listed L e t).
  Proof. apply asc_filter. Qed.

  (** range queries of [get_multiple] and of mix.rs *)
  Lemma between_listed L e t :
    between L (mk_id (id_election e) t (arr_rep x00 16)) (mk_id (id_election e) t (arr_rep xff 16)) = listed L e t.
  Proof.
    unfold between, listed. apply filter_ext. intros x.
    pose proof (id_range_spec (id_election e) t (s_id x)) as R. unfold ble in R. rewrite <- !id_cmp_string in R.
    apply eq_true_iff_eq. rewrite !andb_true_iff, arr_eqb_eq, tt_eqb_eq. rewrite <- R.
    destruct (id_cmp _ (s_id x)), (id_cmp (s_id x) _); intuition congruence.
  Qed.
  Lemma start_le_end e t : id_le (mk_id e t (arr_rep x00 16)) (mk_id e t (arr_rep xff 16)).
  Proof.
    unfold id_le. rewrite id_cmp_string.
    destruct (id_range_spec e t (mk_id e t (arr_rep xff 16))) as [_ H].
    exact (proj1 (H (conj eq_refl eq_refl))).
  Qed.
  Lemma between_point L i : ascending L -> between L i i = match entry L i with Some x => [x] | None => [] end.
  Proof.
    intros H. unfold between.
    transitivity (filter (fun x => id_eqb (s_id x) i) L).
    { apply filter_ext. intros x. apply eq_true_iff_eq. rewrite andb_true_iff, id_eqb_eq.
      rewrite (id_cmp_string i), (id_cmp_string (s_id x)).
      pose proof (lex_opp (id_to_string i) (id_to_string (s_id x))) as O.
      split.
      - intros [A B]. rewrite O in B. destruct (lex (id_to_string i) (id_to_string (s_id x))) eqn:E; cbn in B;
          try discriminate. apply lex_eq, id_to_string_inj in E. auto.
      - intros <-. rewrite lex_refl. auto. }
    induction L as [|x L IH]; [reflexivity|]. cbn [filter]. unfold entry. cbn [find].
    destruct (id_eqb (s_id x) i) eqn:E.
    - apply id_eqb_eq in E. f_equal. rewrite <- E. clear - H.
      destruct (filter _ L) as [|y l] eqn:F; [reflexivity|].
      assert (Hy : In y (filter (fun z => id_eqb (s_id z) (s_id x)) L)) by (rewrite F; left; reflexivity).
      apply filter_In in Hy as [Hy B]. apply id_eqb_eq in B. pose proof (asc_head _ _ _ H Hy) as A.
      rewrite B in A. now apply id_lt_irrefl in A.
    - apply IH. eapply asc_tail; eauto.
  Qed.

  Lemma holds_multiple s L e t : holds s L -> get_multiple s e t = Ok (listed L e t).
  Proof.
    intros H. unfold get_multiple. rewrite id_start_none, id_end_none. cbn [bind].
    rewrite (h_range _ _ H) by apply start_le_end. f_equal. apply between_listed.
  Qed.
  Lemma holds_get s L i : holds s L -> st_get s i = Ok (entry L i).
  Proof. intros H. apply (h_get _ _ H). Qed.
  Lemma holds_point s L i : holds s L -> st_range s i i = Ok (match entry L i with Some x => [x] | None => [] end).
  Proof. intros H. rewrite (h_range _ _ H) by apply id_le_refl. f_equal. apply between_point, (h_asc _ _ H). Qed.
  Lemma holds_typed {A} (proj : Tx -> option A) t s L i r :
    holds s L ->
    (get_typed proj t s i = Ok r <->
     exists x, entry L i = Some x /\ proj (s_tx x) = Some (fst r) /\ s_sig x = snd r).
  Proof.
    intros H. unfold get_typed. rewrite (h_get _ _ H). cbn [lift bind]. destruct (entry L i) as [x|].
    - destruct (proj (s_tx x)) as [a|] eqn:E.
      + split.
        * intros X. injection X as <-. exists x. auto.
        * intros (y & Y & P & S). injection Y as <-. destruct r as [b g]. cbn in *. congruence.
      + split; [discriminate|]. intros (y & Y & P & S). congruence.
    - split; [discriminate|]. intros (y & Y & _). discriminate.
  Qed.
  Lemma holds_typed_err {A} (proj : Tx -> option A) t s L i :
    holds s L -> (forall x a, entry L i = Some x -> proj (s_tx x) = Some a -> False) ->
    get_typed proj t s i = Err (mk_notfound i t).
  Proof.
    intros H N. unfold get_typed. rewrite (h_get _ _ H). cbn [lift bind]. destruct (entry L i) as [x|]; [|reflexivity].
    destruct (proj (s_tx x)) eqn:E; [|reflexivity]. exfalso. eauto.
  Qed.

  (** ** MemStore *)
  Definition ms_wf (m : MemStore) : Prop :=
    bt_sorted m /\ Forall (fun p => fst p = id_to_string (s_id (snd p))) m.
  Definition contents (m : MemStore) : list STx := map snd m.

  Lemma ms_wf_empty : ms_wf ms_empty.
  Proof. split; constructor. Qed.
  Lemma ms_wf_set m x : ms_wf m -> ms_wf (ms_set m x).
  Proof.
    intros [A B]. split; [apply bt_insert_sorted, A|]. apply Forall_forall. intros p Hp.
    apply bt_insert_in in Hp as [->|Hp]; [reflexivity|]. rewrite Forall_forall in B. auto.
  Qed.
  Lemma ms_wf_fold l : forall m, ms_wf m -> ms_wf (fold_left ms_set l m).
  Proof. induction l as [|x l IH]; intros m H; [exact H|]. apply IH, ms_wf_set, H. Qed.
  Lemma ms_wf_from l : ms_wf (ms_from l).
  Proof. apply ms_wf_fold, ms_wf_empty. Qed.

  Lemma ms_contents_asc m : ms_wf m -> ascending (contents m).
  Proof.
    intros [A B]. induction A as [|p m _ IH F]; [constructor|]. inversion B as [|? ? E B']; subst.
    cbn [contents map]. constructor; [exact (IH B')|]. apply Forall_forall. intros y Hy.
    apply in_map_iff in Hy as (p' & <- & Hp). rewrite Forall_forall in F, B'.
    unfold id_lt. rewrite id_cmp_string, <- E, <- (B' _ Hp). exact (F _ Hp).
  Qed.
  Lemma ms_get_entry m i : ms_wf m -> ms_get m i = entry (contents m) i.
  Proof.
    intros [_ B]. unfold ms_get, entry. induction B as [|[k x] m E _ IH]; [reflexivity|].
    cbn [bt_get contents map find fst snd] in *. subst k. rewrite IH.
    destruct (id_eqb (s_id x) i) eqn:F.
    - apply id_eqb_eq in F. subst i. rewrite bytes_eqb_refl. reflexivity.
    - destruct (bytes_eqb _ _) eqn:G; [|reflexivity]. apply bytes_eqb_eq, id_to_string_inj in G.
      subst i. rewrite id_eqb_refl in F. discriminate.
  Qed.
  Lemma ms_holds m : ms_wf m -> holds (ms_store m) (contents m).
  Proof.
    intros H. constructor.
    - apply ms_contents_asc, H.
    - intros i. cbn [ms_store st_get]. f_equal. apply ms_get_entry, H.
    - intros a b Hab. cbn [ms_store st_range]. unfold ms_range, bt_range.
      destruct (bytes_leb _ _) eqn:E.
      + cbn [bind]. f_equal. destruct H as [_ B]. unfold contents, between.
        clear - B. induction B as [|[k x] m E _ IH]; [reflexivity|]. cbn [filter map fst snd] in *. subst k.
        rewrite !id_cmp_string in *. unfold bytes_leb at 1 2.
        destruct (lex (id_to_string a) (id_to_string (s_id x))), (lex (id_to_string (s_id x)) (id_to_string b));
          cbn [andb map snd]; rewrite IH; reflexivity.
      + exfalso. unfold id_le in Hab. rewrite id_cmp_string in Hab. unfold bytes_leb in E.
        destruct (lex _ _); congruence.
  Qed.
  Lemma ms_get_set m x i : ms_get (ms_set m x) i = if id_eqb (s_id x) i then Some x else ms_get m i.
  Proof.
    unfold ms_get, ms_set. rewrite bt_get_insert.
    destruct (id_eqb (s_id x) i) eqn:E.
    - apply id_eqb_eq in E. subst. rewrite bytes_eqb_refl. reflexivity.
    - destruct (bytes_eqb _ _) eqn:F; [|reflexivity]. apply bytes_eqb_eq, id_to_string_inj in F. subst.
      rewrite id_eqb_refl in E. discriminate.
  Qed.
  Lemma ms_get_fold l : forall m i,
    ms_get (fold_left ms_set l m) i = match last_set l i with Some x => Some x | None => ms_get m i end.
  Proof.
    induction l as [|x l IH]; intros m i; [reflexivity|]. cbn [fold_left last_set]. rewrite IH, ms_get_set.
    destruct (last_set l i); [reflexivity|]. destruct (id_eqb (s_id x) i); reflexivity.
  Qed.
  Lemma ms_get_from l i : ms_get (ms_from l) i = last_set l i.
  Proof. unfold ms_from. rewrite ms_get_fold. destruct (last_set l i); reflexivity. Qed.
  Lemma ms_contents_in m x : ms_wf m -> (In x (contents m) <-> ms_get m (s_id x) = Some x).
  Proof.
    intros H. rewrite ms_get_entry by exact H. rewrite (entry_in _ _ _ (ms_contents_asc _ H)). tauto.
  Qed.
  Lemma last_set_id l i x : last_set l i = Some x -> s_id x = i /\ In x l.
  Proof.
    induction l as [|y l IH]; cbn [last_set]; [discriminate|]. destruct (last_set l i) as [z|].
    - intros E. injection E as ->. destruct (IH eq_refl). split; [assumption|right; assumption].
    - destruct (id_eqb (s_id y) i) eqn:F; [|discriminate]. intros E. injection E as ->.
      apply id_eqb_eq in F. split; [assumption|left; reflexivity].
  Qed.
End Facts.
