(** * Facts about bytes, arrays, bounded integers and lexicographic order. *)
From Verif Require Import Base.
From Coq Require Import ZifyBool ZifyNat ZifyN.

(** ** res *)
Lemma bind_ok {E A B} (m : res E A) (f : A -> res E B) b :
  bind m f = Ok b <-> exists a, m = Ok a /\ f a = Ok b.
Proof.
  destruct m; cbn; split; intros H; try discriminate; eauto.
  all: destruct H as (x & H1 & H2); try discriminate. congruence.
Qed.

Lemma fail_if_ok {E} c (e : E) u : fail_if c e = Ok u <-> c = false.
Proof. destruct c, u; cbn; split; congruence. Qed.

Lemma for_each_ok {E A} (l : list A) (f : A -> res E unit) :
  for_each l f = Ok tt <-> forall x, In x l -> f x = Ok tt.
Proof.
  induction l as [|a l IH]; cbn.
  - split; [contradiction|reflexivity]. 
  - rewrite bind_ok. split.
    + intros ([] & H1 & H2) x [->|Hx]; [exact H1|]. apply IH; assumption.
    + intros H. exists tt. split; [apply H; auto|]. apply IH. auto.
Qed.

Lemma map_res_ok {E A B} (f : A -> res E B) l ys :
  map_res f l = Ok ys <-> Forall2 (fun x y => f x = Ok y) l ys.
Proof.
  revert ys; induction l as [|a l IH]; cbn; intros ys.
  - split; intros H; [injection H as <-; constructor|inversion H; reflexivity].
  - rewrite bind_ok. split.
    + intros (y & H1 & H2). apply bind_ok in H2 as (ys' & H2 & H3).
      injection H3 as <-. constructor; [assumption|apply IH; assumption].
    + intros H. inversion H; subst. exists y. split; [assumption|].
      apply bind_ok. exists l'. split; [apply IH; assumption|reflexivity].
Qed.

(** ** bytes *)
Lemma u8v_lt b : (u8v b < 256)%N.
Proof. unfold u8v. pose proof (Byte.to_N_bounded b). lia. Qed.

Lemma u8v_inj a b : u8v a = u8v b -> a = b.
Proof.
  unfold u8v. intros H.
  pose proof (Byte.of_to_N a) as Ha. pose proof (Byte.of_to_N b) as Hb. congruence.
Qed.

Lemma u8v_u8_of n : u8v (u8_of n) = N.modulo n 256.
Proof.
  unfold u8v, u8_of.
  destruct (Byte.of_N (n mod 256)) as [b|] eqn:E.
  - apply Byte.to_of_N in E. exact E.
  - apply Byte.of_N_None_iff in E.
    pose proof (N.mod_lt n 256). lia.
Qed.

Lemma u8_of_u8v b : u8_of (u8v b) = b.
Proof. apply u8v_inj. rewrite u8v_u8_of. apply N.mod_small, u8v_lt. Qed.

Lemma byte_eqb_eq a b : Byte.eqb a b = true <-> a = b.
Proof. split; [apply Byte.byte_dec_bl|apply Byte.byte_dec_lb]. Qed.

Lemma byte_eqb_refl a : Byte.eqb a a = true.
Proof. apply byte_eqb_eq; reflexivity. Qed.

Lemma bytes_eqb_eq a b : bytes_eqb a b = true <-> a = b.
Proof.
  revert b; induction a as [|x a IH]; intros [|y b]; cbn; try (split; congruence).
  rewrite andb_true_iff, byte_eqb_eq, IH. split; [intros [-> ->]; auto|].
  intros H; injection H; auto.
Qed.
Lemma bytes_eqb_refl a : bytes_eqb a a = true.
Proof. apply bytes_eqb_eq; reflexivity. Qed.

Lemma arr_eqb_eq {n} (a b : arr n) : arr_eqb a b = true <-> a = b.
Proof.
  unfold arr_eqb. rewrite bytes_eqb_eq. split; [apply arr_ext|congruence].
Qed.
Lemma u_eqb_eq {k} (a b : uN k) : u_eqb a b = true <-> a = b.
Proof.
  unfold u_eqb. rewrite N.eqb_eq. split; [apply u_ext|congruence].
Qed.

(** ** lexicographic order *)
Lemma byte_cmp_eq a b : byte_cmp a b = Eq <-> a = b.
Proof.
  unfold byte_cmp. rewrite N.compare_eq_iff. split; [apply u8v_inj|congruence].
Qed.
Lemma byte_cmp_refl a : byte_cmp a a = Eq.
Proof. apply byte_cmp_eq; reflexivity. Qed.
Lemma byte_cmp_opp a b : byte_cmp b a = CompOpp (byte_cmp a b).
Proof. unfold byte_cmp. apply N.compare_antisym. Qed.

Lemma lex_eq a b : lex a b = Eq <-> a = b.
Proof.
  revert b; induction a as [|x a IH]; intros [|y b]; cbn; try (split; congruence).
  destruct (byte_cmp x y) eqn:E.
  - apply byte_cmp_eq in E; subst y. rewrite IH. split; congruence.
  - split; [congruence|]. intros H; injection H as -> _. rewrite byte_cmp_refl in E; congruence.
  - split; [congruence|]. intros H; injection H as -> _. rewrite byte_cmp_refl in E; congruence.
Qed.
Lemma lex_refl a : lex a a = Eq.
Proof. apply lex_eq; reflexivity. Qed.
Lemma lex_opp a b : lex b a = CompOpp (lex a b).
Proof.
  revert b; induction a as [|x a IH]; intros [|y b]; cbn; auto.
  rewrite (byte_cmp_opp x y). destruct (byte_cmp x y); cbn; auto.
Qed.
Lemma lex_lt_trans a b c : lex a b = Lt -> lex b c = Lt -> lex a c = Lt.
Proof.
  revert b c; induction a as [|x a IH]; intros [|y b] [|z c]; cbn; try congruence.
  unfold byte_cmp.
  destruct (N.compare_spec (u8v x) (u8v y)) as [H1|H1|H1];
  destruct (N.compare_spec (u8v y) (u8v z)) as [H2|H2|H2]; try congruence; intros Ha Hb.
  - rewrite (proj2 (N.compare_eq_iff _ _)) by lia. eauto.
  - rewrite (proj2 (N.compare_lt_iff _ _)) by lia. reflexivity.
  - rewrite (proj2 (N.compare_lt_iff _ _)) by lia. reflexivity.
  - rewrite (proj2 (N.compare_lt_iff _ _)) by lia. reflexivity.
Qed.

Lemma lex_gt_lt a b : lex a b = Gt <-> lex b a = Lt.
Proof. rewrite (lex_opp a b). destruct (lex a b); cbn; split; congruence. Qed.

Definition blt (a b : bytes) : Prop := lex a b = Lt.
Definition ble (a b : bytes) : Prop := lex a b <> Gt.

Lemma bytes_ltb_lt a b : bytes_ltb a b = true <-> blt a b.
Proof. unfold bytes_ltb, blt. destruct (lex a b); split; congruence. Qed.
Lemma bytes_leb_le a b : bytes_leb a b = true <-> ble a b.
Proof. unfold bytes_leb, ble. destruct (lex a b); split; congruence. Qed.
Lemma ble_alt a b : ble a b <-> blt a b \/ a = b.
Proof.
  unfold ble, blt. rewrite <- (lex_eq a b).
  destruct (lex a b); split; intuition congruence.
Qed.
Lemma blt_irrefl a : ~ blt a a.
Proof. unfold blt. rewrite lex_refl. congruence. Qed.
Lemma blt_trans a b c : blt a b -> blt b c -> blt a c.
Proof. apply lex_lt_trans. Qed.
Lemma ble_refl a : ble a a.
Proof. apply ble_alt; auto. Qed.
Lemma ble_trans a b c : ble a b -> ble b c -> ble a c.
Proof.
  rewrite !ble_alt. intros [H1| ->] [H2| ->]; auto. left; eapply blt_trans; eauto.
Qed.
Lemma blt_le_trans a b c : blt a b -> ble b c -> blt a c.
Proof. rewrite ble_alt. intros H1 [H2| ->]; auto. eapply blt_trans; eauto. Qed.
Lemma ble_lt_trans a b c : ble a b -> blt b c -> blt a c.
Proof. rewrite ble_alt. intros [H1| ->] H2; auto. eapply blt_trans; eauto. Qed.
Lemma ble_antisym a b : ble a b -> ble b a -> a = b.
Proof.
  rewrite !ble_alt. intros [H1|H1] [H2|H2]; auto.
  exfalso. apply (blt_irrefl a). eapply blt_trans; eauto.
Qed.
Lemma blt_total a b : blt a b \/ a = b \/ blt b a.
Proof.
  unfold blt. destruct (lex a b) eqn:E.
  - right; left; apply lex_eq; assumption.
  - auto.
  - right; right; apply lex_gt_lt; assumption.
Qed.
Lemma not_blt a b : ~ blt a b <-> ble b a.
Proof.
  unfold blt, ble. rewrite (lex_opp a b). destruct (lex a b); cbn; split; intros H; intuition congruence.
Qed.
Lemma not_ble a b : ~ ble a b <-> blt b a.
Proof.
  unfold blt, ble. rewrite (lex_opp a b). destruct (lex a b); cbn; split; intros H; intuition congruence.
Qed.

Lemma lex_app_same p a b : lex (p ++ a) (p ++ b) = lex a b.
Proof. induction p as [|x p IH]; cbn; [reflexivity|]. rewrite byte_cmp_refl. exact IH. Qed.

(** Comparing concatenations whose first parts have the same length. *)
Lemma lex_app a b c d :
  length a = length c ->
  lex (a ++ b) (c ++ d) = match lex a c with Eq => lex b d | r => r end.
Proof.
  revert c; induction a as [|x a IH]; intros [|y c]; cbn; try discriminate; auto.
  intros H; injection H as H. rewrite IH by assumption.
  destruct (byte_cmp x y); reflexivity.
Qed.

Lemma lex_cons x y a b :
  lex (x :: a) (y :: b) = match byte_cmp x y with Eq => lex a b | c => c end.
Proof. reflexivity. Qed.

Lemma lex_repeat_00_le l n : length l = n -> ble (repeat x00 n) l.
Proof.
  revert n; induction l as [|x l IH]; intros [|n]; cbn; try discriminate.
  intros H; injection H as H. unfold ble; cbn [repeat lex]. unfold byte_cmp.
    change (u8v x00) with 0%N.
    destruct (N.compare_spec 0 (u8v x)) as [E|E|E]; try discriminate; try lia.
    apply (IH n H).
Qed.
Lemma lex_repeat_ff_ge l n : length l = n -> ble l (repeat xff n).
Proof.
  revert n; induction l as [|x l IH]; intros [|n]; cbn; try discriminate.
  intros H; injection H as H. unfold ble; cbn [repeat lex]. unfold byte_cmp.
    change (u8v xff) with 255%N. pose proof (u8v_lt x).
    destruct (N.compare_spec (u8v x) 255) as [E|E|E]; try discriminate; try lia.
    apply (IH n H).
Qed.

(** ** starts_with *)
Lemma starts_with_spec l p : starts_with l p = true <-> exists r, l = p ++ r.
Proof.
  revert l; induction p as [|y p IH]; intros l; cbn.
  - split; [intros _; exists l; reflexivity|destruct l; reflexivity].
  - destruct l as [|x l]; cbn.
    + split; [discriminate|]. intros (r & H); discriminate.
    + rewrite andb_true_iff, byte_eqb_eq, IH. split.
      * intros [-> (r & ->)]. eauto.
      * intros (r & H). injection H as -> ->. eauto.
Qed.

(** ** arrays *)
Lemma arr_of_some n l a : arr_of n l = Some a <-> arr_l a = l.
Proof.
  unfold arr_of. 
  generalize (@eq_refl bool (Nat.eqb (length l) n)).
  generalize (Nat.eqb (length l) n) at 2 3 as b.
  intros [|] e; split; intros H.
  - injection H as <-. reflexivity.
  - subst l. f_equal. apply arr_ext. reflexivity.
  - discriminate.
  - subst l. rewrite arr_len, Nat.eqb_refl in e. discriminate.
Qed.
Lemma arr_of_arr {n} (a : arr n) : arr_of n (arr_l a) = Some a.
Proof. apply arr_of_some. reflexivity. Qed.
Lemma arr_of_none n l : arr_of n l = None <-> length l <> n.
Proof.
  unfold arr_of.
  generalize (@eq_refl bool (Nat.eqb (length l) n)).
  generalize (Nat.eqb (length l) n) at 2 3 as b.
  intros [|] e; split; intros H; try discriminate; try reflexivity.
  - exfalso. apply H, Nat.eqb_eq, e.
  - apply Nat.eqb_neq, e.
Qed.
Lemma arr_of_ex n l : length l = n -> exists a, arr_of n l = Some a /\ arr_l a = l.
Proof.
  intros H. destruct (arr_of n l) as [a|] eqn:E.
  - exists a. split; [reflexivity|]. apply arr_of_some; assumption.
  - apply arr_of_none in E. contradiction.
Qed.
Lemma arr_app_l {n m} (a : arr n) (b : arr m) : arr_l (arr_app a b) = arr_l a ++ arr_l b.
Proof. reflexivity. Qed.
Lemma app_eq_len {A} (a c b d : list A) :
  length a = length c -> a ++ b = c ++ d -> a = c /\ b = d.
Proof.
  revert c; induction a as [|x a IH]; intros [|y c]; cbn; try discriminate; auto.
  intros Hl H. injection H as -> H. injection Hl as Hl.
  destruct (IH c Hl H) as [-> ->]. auto.
Qed.
Lemma arr_app_inj {n m} (a c : arr n) (b d : arr m) :
  arr_app a b = arr_app c d -> a = c /\ b = d.
Proof.
  intros H. apply (f_equal arr_l) in H. rewrite !arr_app_l in H.
  apply app_eq_len in H; [|rewrite !arr_len; reflexivity].
  destruct H. split; apply arr_ext; assumption.
Qed.
Lemma arr1_inj a b : arr1 a = arr1 b -> a = b.
Proof. intros H. apply (f_equal arr_l) in H. injection H. auto. Qed.

(** ** integers *)
Lemma pow256_S k : pow256 (S k) = (256 * pow256 k)%N.
Proof.
  unfold pow256. rewrite Nat2N.inj_succ, N.pow_succ_r'. reflexivity.
Qed.
Lemma pow256_pos k : (0 < pow256 k)%N.
Proof. pose proof (pow256_nz k). lia. Qed.

Lemma be_val_list k n : be_val (be_list k n) = N.modulo n (pow256 k).
Proof.
  induction k as [|k IH]; cbn [be_list be_val].
  - change (pow256 0) with 1%N. rewrite N.mod_1_r. reflexivity.
  - rewrite be_list_length, IH, u8v_u8_of, pow256_S.
    rewrite (N.mul_comm 256 (pow256 k)).
    rewrite N.mod_mul_r by (try apply pow256_nz; discriminate). lia.
Qed.
Lemma be_val_to_be {k} (n : uN k) : be_val (arr_l (to_be n)) = uv n.
Proof.
  cbn [to_be arr_l]. rewrite be_val_list. apply N.mod_small, uv_lt.
Qed.
Lemma to_be_inj {k} (a b : uN k) : to_be a = to_be b -> a = b.
Proof.
  intros H. apply u_ext. rewrite <- !be_val_to_be. congruence.
Qed.
Lemma be_val_lt l : (be_val l < pow256 (length l))%N.
Proof.
  induction l as [|b l IH]; cbn [be_val length].
  - change (pow256 0) with 1%N. lia.
  - rewrite pow256_S. pose proof (u8v_lt b). nia.
Qed.
Lemma be_list_val l : be_list (length l) (be_val l) = l.
Proof.
  induction l as [|b l IH]; cbn [be_list be_val length]; [reflexivity|].
  pose proof (be_val_lt l) as Hl. pose proof (pow256_nz (length l)) as Hnz. f_equal.
  - apply u8v_inj. rewrite u8v_u8_of.
    rewrite N.div_add_l by assumption. rewrite N.div_small by assumption.
    rewrite N.add_0_r. apply N.mod_small, u8v_lt.
  - assert (G : forall k m n, (k <= m)%nat ->
      be_list k (u8v b * pow256 m + n)%N = be_list k n).
    { intros k m n. induction k as [|k IHk]; intros Hk; [reflexivity|]. cbn [be_list]. f_equal.
      - apply u8v_inj. rewrite !u8v_u8_of.
        replace (pow256 m) with (pow256 (m - S k) * 256 * pow256 k)%N.
        2: { replace m with (S (m - S k + k)) at 2 by lia. rewrite pow256_S.
             unfold pow256. rewrite Nat2N.inj_add, N.pow_add_r. lia. }
        rewrite !N.mul_assoc, N.div_add_l by apply pow256_nz.
        rewrite (N.add_comm _ (n / _)). rewrite N.mod_add by discriminate. reflexivity.
      - apply IHk. lia. }
    rewrite G by lia. exact IH.
Qed.

(** ** u8 arithmetic *)
Lemma u8_sub_1 {E} dbg (a : byte) :
  a <> x00 -> @u8_sub E dbg a x01 = Ok (u8_of (u8v a - 1)).
Proof.
  intros H. unfold u8_sub. change (u8v x01) with 1%N.
  destruct (N.leb_spec 1 (u8v a)); [reflexivity|].
  exfalso. apply H. apply u8v_inj. change (u8v x00) with 0%N. lia.
Qed.
