(** * HistFacts: splitting histories; the store of a history holds exactly its transactions. *)
From Verif Require Import Base BaseFacts Ident IdentFacts Crypto Types Serde Store SpecStore StoreFacts Validate
  ValidateFacts SpecHist.
Open Scope list_scope.

Section Facts.
  Context {C : Crypto}.
  Variable dbg : bool.
  Notation history := (history dbg).

  Lemma hist_snoc_inv l x :
    history (l ++ [x]) ->
    history l /\ fresh l (s_id x) /\ validate dbg (ms_store (ms_from l)) x = Ok tt.
  Proof.
    intros H. inversion H as [E|l' x' Hl Hf Hv E].
    - destruct l; discriminate.
    - apply app_inj_tail in E as [-> ->]. auto.
  Qed.
  Lemma hist_prefix p q : history (p ++ q) -> history p.
  Proof.
    revert p. induction q as [|x q IH] using rev_ind; intros p H.
    - rewrite app_nil_r in H. exact H.
    - rewrite app_assoc in H. apply hist_snoc_inv in H as [H _]. auto.
  Qed.
  Lemma hist_at p x q :
    history (p ++ x :: q) ->
    history p /\ fresh p (s_id x) /\ validate dbg (ms_store (ms_from p)) x = Ok tt.
  Proof.
    intros H. apply hist_snoc_inv. apply hist_prefix with (q := q). rewrite <- app_assoc. exact H.
  Qed.
  Lemma hist_nodup l : history l -> NoDup (map s_id l).
  Proof.
    induction 1 as [|l x _ IH F _]; [constructor|]. rewrite map_app. cbn [map].
    rewrite <- (rev_involutive (map s_id l ++ [s_id x])). apply NoDup_rev. rewrite rev_app_distr.
    cbn [rev app]. constructor.
    - rewrite <- in_rev, in_map_iff. intros (y & E & Hy). exact (F _ Hy E).
    - apply NoDup_rev, IH.
  Qed.
  Lemma last_set_nodup l x : NoDup (map s_id l) -> In x l -> last_set l (s_id x) = Some x.
  Proof.
    induction l as [|y l IH]; intros N; [intros []|]. inversion N as [|? ? Hy N']; subst. cbn [last_set].
    intros [->|Hx].
    - destruct (last_set l (s_id x)) as [z|] eqn:E; [|rewrite id_eqb_refl; reflexivity].
      apply last_set_id in E as [E Hz]. exfalso. apply Hy. rewrite <- E. apply in_map, Hz.
    - rewrite (IH N' Hx). reflexivity.
  Qed.

  (** the content of the store of a history *)
  Definition stored (l : list STx) : list STx := contents (ms_from l).
  Lemma stored_in l x : NoDup (map s_id l) -> (In x (stored l) <-> In x l).
  Proof.
    intros N. unfold stored. rewrite ms_contents_in, ms_get_from by apply ms_wf_from. split.
    - intros E. apply last_set_id in E. tauto.
    - apply last_set_nodup, N.
  Qed.
  Lemma hist_stored l x : history l -> (In x (stored l) <-> In x l).
  Proof. intros H. apply stored_in, hist_nodup, H. Qed.
  Lemma stored_asc l : ascending (stored l).
  Proof. apply ms_contents_asc, ms_wf_from. Qed.
  Lemma stored_holds l : holds (ms_store (ms_from l)) (stored l).
  Proof. apply ms_holds, ms_wf_from. Qed.
  Lemma hist_entry l i x : history l -> (entry (stored l) i = Some x <-> In x l /\ s_id x = i).
  Proof. intros H. rewrite (entry_in _ _ _ (stored_asc l)), hist_stored by exact H. tauto. Qed.
  Lemma hist_unique l x y : history l -> In x l -> In y l -> s_id x = s_id y -> x = y.
  Proof.
    intros H Hx Hy E. apply (asc_unique (stored l)); auto; [apply stored_asc|apply hist_stored; auto..].
  Qed.
  Lemma in_split_hist (l : list STx) x : In x l -> exists p q, l = p ++ x :: q.
  Proof. apply in_split. Qed.
  (** every recorded transaction was accepted *)
  Lemma hist_accepted l x :
    history l -> In x l ->
    exists p q, l = p ++ x :: q /\ history p /\ fresh p (s_id x)
      /\ validate dbg (ms_store (ms_from p)) x = Ok tt.
  Proof.
    intros H Hx. destruct (in_split _ _ Hx) as (p & q & ->). exists p, q. split; [reflexivity|].
    apply hist_at in H. exact H.
  Qed.
  (** its identifier has its own type *)
  Lemma hist_typed l x : history l -> In x l -> id_type (s_id x) = s_type x.
  Proof. intros H Hx. apply hist_accepted in Hx as (p & q & _ & _ & _ & V); [|exact H]. now apply validate_ok in V. Qed.
  Lemma hist_signed l x p :
    history l -> In x l -> tx_public (s_tx x) = Some p -> ed_verify p (tx_bytes (s_tx x)) (s_sig x) = true.
  Proof.
    intros H Hx Hp. apply hist_accepted in Hx as (? & ? & _ & _ & _ & V); [|exact H].
    eapply validate_signed; eauto.
  Qed.
End Facts.

(** running [replay] of Scene.v on a concrete list gives a history *)
Section Replay.
  Context {C : Crypto}.
  Fixpoint freshb (l : list STx) (i : Identifier) : bool :=
    match l with [] => true | y :: l' => negb (id_eqb (s_id y) i) && freshb l' i end.
  Lemma freshb_ok l i : freshb l i = true -> fresh l i.
  Proof.
    induction l as [|y l IH]; cbn [freshb]; [intros _ z []|]. rewrite andb_true_iff. intros [A B] z [<-|Hz].
    - apply id_eqb_neq. destruct (id_eqb (s_id y) i); [discriminate|reflexivity].
    - apply IH; auto.
  Qed.
  Fixpoint checks (dbg : bool) (done todo : list STx) (m : MemStore) : bool :=
    match todo with
    | [] => true
    | x :: todo' => freshb done (s_id x) && is_ok (validate dbg (ms_store m) x)
                    && checks dbg (done ++ [x]) todo' (ms_set m x)
    end.
  Lemma checks_history dbg todo : forall done,
    history dbg done -> checks dbg done todo (ms_from done) = true -> history dbg (done ++ todo).
  Proof.
    induction todo as [|x todo IH]; intros done H Hc; [rewrite app_nil_r; exact H|].
    cbn [checks] in Hc. rewrite !andb_true_iff in Hc. destruct Hc as [[A B] D].
    replace (done ++ x :: todo) with ((done ++ [x]) ++ todo) by (rewrite <- app_assoc; reflexivity).
    apply IH.
    - constructor; [exact H|apply freshb_ok, A|]. destruct (validate _ _ _) as [[]| |]; [reflexivity|discriminate..].
    - unfold ms_from in *. rewrite fold_left_app. exact D.
  Qed.
  Lemma run_history dbg l : checks dbg [] l ms_empty = true -> history dbg l.
  Proof. intros H. apply (checks_history dbg l []); [constructor|exact H]. Qed.
End Replay.
