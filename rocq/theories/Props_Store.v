(** * Props_Store: C05 (listing by election and type), C06 (last-write-wins map). *)
From Verif Require Import Base BaseFacts Ident BuildId IdentFacts Crypto Types Serde Store SpecStore StoreFacts Validate
  Toy Scene.
Open Scope list_scope.

Section Props.
  Context {C : Crypto}.

  (** C05: for every sequence of writes, the listing is exactly the surviving entries of that
      election and type, in strictly ascending identifier order (hence each once) *)
  Theorem C05_listing_exact :
    forall (l : list STx) (e : Identifier) (t : TxType),
    exists r, get_multiple (ms_store (ms_from l)) e t = Ok r
      /\ ascending r
      /\ (forall x, In x r <-> last_set l (s_id x) = Some x
                               /\ id_election (s_id x) = id_election e /\ id_type (s_id x) = t).
  Proof.
    intros l e t. pose proof (ms_wf_from l) as W. pose proof (ms_holds _ W) as H.
    exists (listed (contents (ms_from l)) e t).
    split; [apply holds_multiple, H|]. split; [apply listed_asc, (h_asc _ _ H)|].
    intros x. rewrite listed_in, ms_contents_in, ms_get_from by exact W. tauto.
  Qed.
  (** the three clauses determine the result *)
  Theorem C05_listing_unique :
    forall (P : STx -> Prop) r r', ascending r -> ascending r' ->
    (forall x, In x r <-> P x) -> (forall x, In x r' <-> P x) -> r = r'.
  Proof. intros P r r' A B HR HR'. apply asc_ext; auto. intros x. rewrite HR, HR'. tauto. Qed.
  (** range queries between any two identifiers in order *)
  Theorem C05_range_exact :
    forall (l : list STx) a b, id_cmp a b <> Gt ->
    exists r, st_range (ms_store (ms_from l)) a b = Ok r /\ ascending r
      /\ (forall x, In x r <-> last_set l (s_id x) = Some x
                               /\ id_cmp a (s_id x) <> Gt /\ id_cmp (s_id x) b <> Gt).
  Proof.
    intros l a b Hab. pose proof (ms_wf_from l) as W. pose proof (ms_holds _ W) as H.
    exists (between (contents (ms_from l)) a b).
    split; [apply (h_range _ _ H), Hab|]. split; [apply asc_filter, (h_asc _ _ H)|].
    intros x. unfold between. rewrite filter_In, ms_contents_in, ms_get_from, andb_true_iff by exact W.
    destruct (id_cmp a (s_id x)), (id_cmp (s_id x) b); intuition congruence.
  Qed.
  (** a reversed range panics *)
  Theorem C05_reversed_range_panics :
    forall m a b, id_cmp a b = Gt -> st_range (ms_store m) a b = Panic PRange.
  Proof.
    intros m a b H. cbn [ms_store st_range]. unfold ms_range, bt_range, bytes_leb.
    rewrite <- id_cmp_string, H. reflexivity.
  Qed.

  (** C06 *)
  Theorem C06_last_write_wins :
    forall (l : list STx) i, st_get (ms_store (ms_from l)) i = Ok (last_set l i).
  Proof. intros l i. cbn [ms_store st_get]. f_equal. apply ms_get_from. Qed.
  Theorem C06_set_get :
    forall m x i, st_get (ms_store (ms_set m x)) i
                  = if id_eqb (s_id x) i then Ok (Some x) else st_get (ms_store m) i.
  Proof. intros m x i. cbn [ms_store st_get]. rewrite ms_get_set. destruct (id_eqb _ _); reflexivity. Qed.
  (** only the last write to each identifier matters *)
  Theorem C06_same_last_writes_same_store :
    forall l l', (forall i, last_set l i = last_set l' i) -> ms_from l = ms_from l'.
  Proof.
    intros l l' H. pose proof (ms_wf_from l) as W. pose proof (ms_wf_from l') as W'.
    assert (E : contents (ms_from l) = contents (ms_from l')).
    { apply asc_ext; [apply ms_contents_asc; assumption..|]. intros x.
      rewrite !ms_contents_in, !ms_get_from, H by assumption. tauto. }
    destruct W as [_ W], W' as [_ W']. revert W W' E. generalize (ms_from l) (ms_from l'). clear.
    intros m m' W. revert m'. induction W as [|[k x] m Hk _ IH]; intros [|[k' x'] m'] W' E; try discriminate;
      [reflexivity|].
    inversion W' as [|? ? Hk' W'']; subst. cbn [contents map fst snd] in *. injection E as -> E. subst.
    f_equal. apply IH; assumption.
  Qed.
  Theorem C06_typed_getters :
    forall (A : Type) (proj : Tx -> option A) t l i a g,
    get_typed proj t (ms_store (ms_from l)) i = Ok (a, g) <->
    exists x, last_set l i = Some x /\ proj (s_tx x) = Some a /\ s_sig x = g.
  Proof.
    intros A proj t l i a g. rewrite (holds_typed _ _ _ _ _ _ (ms_holds _ (ms_wf_from l))).
    rewrite <- (ms_get_entry _ _ (ms_wf_from l)), ms_get_from. reflexivity.
  Qed.
  Theorem C06_typed_getters_not_found :
    forall (A : Type) (proj : Tx -> option A) t l i,
    (forall a g, get_typed proj t (ms_store (ms_from l)) i <> Ok (a, g)) ->
    get_typed proj t (ms_store (ms_from l)) i = Err (mk_notfound i t).
  Proof.
    intros A proj t l i. unfold get_typed. cbn [ms_store st_get lift bind].
    destruct (ms_get (ms_from l) i) as [x|]; [|reflexivity].
    destruct (proj (s_tx x)) as [a|]; [|reflexivity]. intros H. exfalso. exact (H a (s_sig x) eq_refl).
  Qed.
End Props.

#[local] Existing Instance Toy.
(** a store with 15 entries of 8 types: two votes are listed, a rewritten vote once *)
Example C05_example :
  match get_multiple (ms_store (ms_from (scene_plain ++ [vote x20 b1]))) EID TVote with
  | Ok [a; b] => id_eqb (s_id a) v20 && id_eqb (s_id b) v21
                 && bytes_eqb (stx_bytes a) (stx_bytes (vote x20 b1))
  | _ => false
  end = true.
Proof. vm_compute. reflexivity. Qed.
Example C05_range_example : id_cmp (id_new EID TVote None) (id_new EID TMix None) <> Gt
  /\ id_cmp (id_new EID TMix None) (id_new EID TVote None) = Gt.
Proof. split; [vm_compute; discriminate|vm_compute; reflexivity]. Qed.
Definition same_tx (o : option STx) (x : STx) : bool :=
  match o with Some y => bytes_eqb (stx_bytes y) (stx_bytes x) | None => false end.
Example C06_example :
  same_tx (last_set (scene_plain ++ [vote x20 b1]) v20) (vote x20 b1)
  && negb (same_tx (last_set scene_plain v20) (vote x20 b1))
  && match get_vote (ms_store (ms_from scene_plain)) (s_id votingend) with Err _ => true | _ => false end = true.
Proof. vm_compute. reflexivity. Qed.

Print Assumptions C05_listing_exact.
Print Assumptions C05_listing_unique.
Print Assumptions C05_range_exact.
Print Assumptions C05_reversed_range_panics.
Print Assumptions C06_last_write_wins.
Print Assumptions C06_set_get.
Print Assumptions C06_same_last_writes_same_store.
Print Assumptions C06_typed_getters.
Print Assumptions C06_typed_getters_not_found.
