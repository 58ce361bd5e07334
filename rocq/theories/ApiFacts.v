(** * ApiFacts: the prefix listing. *)
From Verif Require Import Base BaseFacts Hex HexFacts Utf8 Cbor Ident BuildId IdentFacts Crypto Types Serde Store
  SpecStore StoreFacts Prost Validate ValidateFacts Exonum SpecLedger LedgerFacts Api Props_Ident.
From Coq Require Import Sorting.Sorted.
Open Scope list_scope.

Lemma ble_cons x y a b : ble (x :: a) (y :: b) <-> byte_cmp x y = Lt \/ (x = y /\ ble a b).
Proof.
  unfold ble. cbn [lex]. pose proof (byte_cmp_eq x y) as E. destruct (byte_cmp x y) eqn:F.
  - assert (x = y) by (apply E; reflexivity). split; [auto|]. intros [K|[_ K]]; [discriminate|exact K].
  - split; [auto|discriminate].
  - split; [congruence|]. intros [K|[K _]]; [discriminate|]. apply E in K. discriminate.
Qed.
Lemma prefix_between p : forall k k', ble p k -> ble k k' -> starts_with k' p = true -> starts_with k p = true.
Proof.
  induction p as [|x p IH]; intros k k' A B S; [destruct k; reflexivity|].
  destruct k' as [|x' k']; [discriminate|]. cbn [starts_with] in S. apply andb_true_iff in S as [S1 S2].
  apply byte_eqb_eq in S1. subst x'. destruct k as [|y k]; [unfold ble in A; cbn [lex] in A; congruence|].
  apply ble_cons in A. apply ble_cons in B. cbn [starts_with].
  assert (x = y) as <-.
  { destruct A as [A|[A _]]; [|exact A]. destruct B as [B|[B _]]; [|auto].
    rewrite byte_cmp_opp, A in B. discriminate. }
  rewrite byte_eqb_refl. cbn [andb]. apply (IH k k'); [| |exact S2].
  - destruct A as [A|[_ A]]; [|exact A]. rewrite byte_cmp_refl in A. discriminate.
  - destruct B as [B|[_ B]]; [|exact B]. rewrite byte_cmp_refl in B. discriminate.
Qed.
Lemma ble_app_l p r : ble p (p ++ r).
Proof. unfold ble. rewrite <- (app_nil_r p) at 1. rewrite lex_app_same. destruct r; cbn; discriminate. Qed.
Lemma ble_zeros n r : length r = n -> (forall b, In b r -> (48 <= u8v b)%N) -> ble (repeat x30 n) r.
Proof.
  revert n. induction r as [|b r IH]; intros [|n] L H; [unfold ble; cbn; discriminate|discriminate L|discriminate L|].
  cbn [repeat]. apply ble_cons. destruct (N.lt_ge_cases 48 (u8v b)) as [K|K].
  - left. unfold byte_cmp. apply N.compare_lt_iff. exact K.
  - right. split.
    + apply u8v_inj. change (u8v x30) with 48%N. specialize (H b (or_introl eq_refl)). lia.
    + apply IH; [injection L; auto|]. intros c Hc. apply H. right. exact Hc.
Qed.
Lemma ble_app_same p a b : ble a b -> ble (p ++ a) (p ++ b).
Proof. unfold ble. rewrite lex_app_same. auto. Qed.

(** bytes of printed identifiers are hex digits *)
Lemma id_string_digit i b : In b (id_to_string i) -> (48 <= u8v b < 128)%N.
Proof.
  unfold id_to_string. induction (id_to_bytes i) as [|c l IH]; [intros []|].
  change (hex_encode (c :: l)) with (hex_byte c ++ hex_encode l). intros H. apply in_app_or in H as [H|H]; [|auto].
  pose proof (byte_sweep (fun b => forallb (fun d => (48 <=? u8v d)%N && (u8v d <? 128)%N) (hex_byte b))
    ltac:(vm_compute; reflexivity) c) as K.
  rewrite forallb_forall in K. apply K in H. lia.
Qed.
Lemma char_count_ascii p : (forall b, In b p -> (u8v b < 128)%N) -> char_count p = length p.
Proof.
  intros H. unfold char_count. rewrite filter_all; [reflexivity|]. intros b Hb. apply H in Hb.
  unfold cont, in_range. destruct (128 <=? u8v b)%N eqn:E; [apply N.leb_le in E; lia|reflexivity].
Qed.
Lemma pad_le i p : starts_with (id_to_string i) p = true -> ble (pad64 p) (id_to_string i).
Proof.
  intros H. apply starts_with_spec in H as (r & E). pose proof (id_to_string_length i) as L.
  assert (D : forall b, In b (p ++ r) -> (48 <= u8v b < 128)%N) by (rewrite <- E; apply id_string_digit).
  unfold pad64. rewrite char_count_ascii.
  - rewrite E in *. rewrite app_length in L. apply ble_app_same, ble_zeros; [lia|].
    intros b Hb. apply D, in_or_app. right. exact Hb.
  - intros b Hb. apply D, in_or_app. left. exact Hb.
Qed.

Section Facts.
  Context {C : Crypto}.

  Lemma take_prefix_spec p (L : Ledger) :
    bt_sorted L -> (forall k e, In (k, e) L -> ble p k /\ exists x, carries e x) ->
    exists l, take_prefix p L = Ok l
      /\ Forall2 (fun kv x => carries (snd kv) x) (filter (fun kv => starts_with (fst kv) p) L) l.
  Proof.
    induction L as [|[k e] L IH]; intros S H; [exists []; split; [reflexivity|constructor]|].
    inversion S as [|? ? S' F]; subst. cbn [take_prefix filter fst]. destruct (starts_with k p) eqn:E; cbn [negb].
    - destruct IH as (l & A & B); [exact S'|intros k' e' X; apply H; right; exact X|].
      destruct (H k e (or_introl eq_refl)) as (_ & x & D). exists (x :: l). unfold api_decode. rewrite D.
      cbn [map_err bind]. rewrite A. cbn [bind]. split; [reflexivity|]. constructor; [exact D|exact B].
    - exists []. split; [reflexivity|]. rewrite filter_nothing; [constructor|].
      intros [k' e'] X. cbn [fst]. destruct (starts_with k' p) eqn:E'; [|reflexivity]. exfalso.
      rewrite (prefix_between p k k') in E; [discriminate| | |exact E'].
      + apply (H k e). left. reflexivity.
      + rewrite Forall_forall in F. apply F in X. apply ble_alt. left. exact X.
  Qed.
  Lemma get_all_prefix L p :
    lwf L -> (forall k e, In (k, e) L -> exists i, k = id_to_string i) ->
    exists l, get_all L (Some p) = Ok l
      /\ Forall2 (fun kv x => carries (snd kv) x) (filter (fun kv => starts_with (fst kv) (sv p)) L) l.
  Proof.
    intros W K. unfold get_all. destruct (take_prefix_spec (sv p) (iter_from L (pad64 (sv p)))) as (l & A & B).
    - apply iter_from_sorted, W.
    - intros k e X. apply filter_In in X as [X Y]. cbn [fst] in Y. split; [|apply (lw_entry _ W) in X; tauto].
      apply bytes_leb_le in Y. eapply ble_trans; [|exact Y]. apply ble_app_l.
    - exists l. split; [exact A|]. unfold iter_from in B.
      assert (E : filter (fun kv : bytes * Env => starts_with (fst kv) (sv p))
                    (filter (fun q => bytes_leb (pad64 (sv p)) (fst q)) L)
                  = filter (fun kv => starts_with (fst kv) (sv p)) L); [|rewrite <- E; exact B].
      clear -K. induction L as [|[k e] L IH]; [reflexivity|]. cbn [filter fst].
      assert (K' : forall k e, In (k, e) L -> exists i, k = id_to_string i) by (intros a b X; apply (K a b); right; exact X).
      destruct (bytes_leb (pad64 (sv p)) k) eqn:E1; cbn [filter fst]; destruct (starts_with k (sv p)) eqn:E2;
        rewrite ?IH by exact K'; auto.
      destruct (K k e (or_introl eq_refl)) as (i & ->). apply pad_le, bytes_leb_le in E2. congruence.
  Qed.
  Lemma get_all_none L : lwf L ->
    exists l, get_all L None = Ok l /\ Forall2 (fun kv x => carries (snd kv) x) L l.
  Proof.
    intros [_ H]. unfold get_all. induction L as [|[k e] L IH]; [exists []; split; [reflexivity|constructor]|].
    destruct IH as (l & A & B); [intros k' e' X; apply H; right; exact X|].
    destruct (H k e (or_introl eq_refl)) as (_ & x & D). exists (x :: l). cbn [map_res snd]. unfold api_decode at 1.
    rewrite D. cbn [map_err bind]. rewrite A. split; [reflexivity|]. constructor; [exact D|exact B].
  Qed.
End Facts.
