(** * JsonFacts: what is written as JSON is read back. *)
From Verif Require Import Base BaseFacts Hex HexFacts Utf8 Cbor CborFacts Value Ident IdentFacts Crypto Types MapFacts ValueFacts Serde SpecSerde SerdeFacts
  Json.
From Verif Require ReserFacts.
From Coq Require Import Strings.String.
Open Scope list_scope.

(** ** texts *)
Lemma skip_ws_app w l : forallb is_ws w = true -> skip_ws (w ++ l) = skip_ws l.
Proof.
  induction w as [|b w IH]; [reflexivity|]. cbn [forallb app skip_ws]. intros H. apply andb_true_iff in H as [H1 H2]. rewrite H1. apply IH, H2.
Qed.
Lemma skip_ws_stop b l : is_ws b = false -> skip_ws (b :: l) = b :: l.
Proof. intros H. cbn [skip_ws]. rewrite H. reflexivity. Qed.

Definition put (p : bytes) (o : option (bytes * bytes)) : option (bytes * bytes) :=
  match o with Some (s, r) => Some (p ++ s, r) | None => None end.
(** control characters as six characters *)
Definition six (b : byte) : bool :=
  match hex_byte b with
  | [h; l] => match hex4 x30 x30 h l with
              | Some n => N.eqb n (u8v b) && negb (surr_lo n) && negb (surr_hi n) && implb (n <? 128)%N (bytes_eqb (utf8_enc n) [b])
              | None => false
              end
  | _ => false
  end.
Lemma six_spec b : in_range 0 31 b = true -> exists h l n, hex_byte b = [h; l] /\ hex4 x30 x30 h l = Some n /\ surr_lo n = false /\ surr_hi n = false
  /\ utf8_enc n = [b].
Proof.
  intros R. pose proof (byte_sweep six ltac:(vm_compute; reflexivity) b) as H. cbv beta in H. unfold six in H.
  destruct (hex_byte b) as [|h [|l [|]]]; try discriminate. destruct (hex4 x30 x30 h l) as [n|] eqn:E; try discriminate.
  rewrite !andb_true_iff, !negb_true_iff, N.eqb_eq in H. destruct H as [[[-> H1] H2] H3].
  exists h, l, (u8v b). repeat split; try assumption. unfold in_range in R. rewrite andb_true_iff, !N.leb_le in R.
  replace (u8v b <? 128)%N with true in H3 by (symmetry; apply N.ltb_lt; lia). apply bytes_eqb_eq, H3.
Qed.
Lemma jchars_one c b l : unesc c = Some b -> Byte.eqb c x75 = false -> jchars (x5c :: c :: l) = put [b] (jchars l).
Proof. intros H U. cbn [jchars]. change (Byte.eqb x5c x22) with false. change (Byte.eqb x5c x5c) with true. cbv iota. rewrite U, H. reflexivity. Qed.
Lemma jchars_esc b l : jchars (esc b ++ l) = put [b] (jchars l).
Proof.
  unfold esc.
  repeat match goal with |- context [if Byte.eqb b ?c then [x5c; ?e] else _] =>
    let E := fresh "E" in destruct (Byte.eqb b c) eqn:E; [apply beq in E; subst b; exact (jchars_one e c l eq_refl eq_refl)|] end.
  destruct (in_range 0 31 b) eqn:R; cbn [negb].
  - repeat match goal with |- context [if Byte.eqb b ?c then [x5c; ?e] else _] =>
      let E := fresh "E" in destruct (Byte.eqb b c) eqn:E; [apply beq in E; subst b; exact (jchars_one e c l eq_refl eq_refl)|] end.
    destruct (six_spec b R) as (h & k & n & -> & H & S1 & S2 & U). cbn [app jchars].
    change (Byte.eqb x5c x22) with false. change (Byte.eqb x5c x5c) with true. change (Byte.eqb x75 x75) with true. cbv iota.
    rewrite H, S1, S2, U. reflexivity.
  - cbn [app jchars]. rewrite E, E0, R. reflexivity.
Qed.
Lemma jchars_quoted s r : jchars (flat_map esc s ++ x22 :: r) = Some (s, r).
Proof.
  induction s as [|b s IH]; [reflexivity|]. cbn [flat_map]. rewrite <- app_assoc, jchars_esc, IH. reflexivity.
Qed.
Lemma jstring_quoted (s : rstring) r : jstring (flat_map esc (sv s) ++ x22 :: r) = Some (s, r).
Proof. unfold jstring. rewrite jchars_quoted, sub_of_sv. reflexivity. Qed.

(** ** documents *)
Fixpoint jnums (j : jval) : bool :=
  match j with
  | JNum s => num_ok (sv s)
  | JArr l => forallb jnums l
  | JObj l => forallb (fun p => match p with (_, v) => jnums v end) l
  | _ => true
  end.
Fixpoint jdepth (j : jval) : nat :=
  match j with
  | JArr l => S (fold_right (fun x m => Nat.max (jdepth x) m) 0 l)
  | JObj l => S (fold_right (fun p m => match p with (_, v) => Nat.max (jdepth v) m end) 0 l)
  | _ => 0
  end.

Lemma jitems_commas {A} (dec : bytes -> option (A * bytes)) (close : byte) (w wn : bytes) (p : A -> bytes) (l : list A) r :
  is_ws close = false -> Byte.eqb x2c close = false -> digit close = false -> stops [close] = true ->
  forallb is_ws wn = true ->
  (forall x r', In x l -> stops r' = true -> dec (w ++ p x ++ r') = Some (x, r')) ->
  l <> [] -> forall f, List.length l <= f ->
  jitems dec close f (commas w (map p l) ++ wn ++ close :: r) = Some (l, r).
Proof.
  intros Wc Nc Dc Sc Wn H. induction l as [|x l IH]; [congruence|]. intros _ f Lf. destruct f as [|f]; [cbn [List.length] in Lf; lia|].
  cbn [map commas jitems]. destruct l as [|y l].
  - cbn [map]. rewrite app_nil_r, <- app_assoc. rewrite H; [|left; reflexivity|].
    + rewrite skip_ws_app by exact Wn. rewrite (skip_ws_stop close r Wc).
      replace (Byte.eqb close close) with true; [reflexivity|]. symmetry. apply beq. reflexivity.
    + destruct wn as [|b wn]; [exact Sc|]. cbn [app]. cbn [forallb] in Wn. apply andb_true_iff in Wn as [Wn _]. unfold is_ws in Wn.
      rewrite !orb_true_iff, !beq in Wn. destruct Wn as [[[->| ->]| ->]| ->]; reflexivity.
  - cbn [map]. rewrite <- !app_assoc. rewrite H; [|left; reflexivity|reflexivity].
    cbn [app]. rewrite (skip_ws_stop x2c) by reflexivity. rewrite Nc. change (Byte.eqb x2c x2c) with true. cbv iota.
    change (p y :: map p l) with (map p (y :: l)). rewrite IH; [reflexivity| |discriminate|cbn [List.length] in *; lia].
    intros z r' I. apply H. right. exact I.
Qed.
Lemma commas_len {A} (w : bytes) (p : A -> bytes) l : (forall x, In x l -> p x <> []) -> List.length l <= List.length (commas w (map p l)).
Proof.
  induction l as [|x l IH]; intros H; [cbn; lia|]. cbn [map commas List.length]. rewrite !app_length.
  assert (1 <= List.length (p x)) by (pose proof (H x (or_introl eq_refl)); destruct (p x); [congruence|cbn [List.length]; lia]).
  assert (L : List.length l <= List.length (commas w (map p l))) by (apply IH; intros; apply H; right; assumption).
  destruct l as [|y l]; [cbn [List.length]; lia|]. cbn [map] in *. cbn [List.length] in *. lia.
Qed.
Lemma commas_head {A} (w : bytes) (p : A -> bytes) x l : exists t, commas w (map p (x :: l)) = w ++ p x ++ t.
Proof. cbn [map commas]. eauto. Qed.

Lemma fold_le {A} (f : A -> nat) (l : list A) d : S (fold_right (fun x m => Nat.max (f x) m) 0 l) <= S d -> forall x, In x l -> f x <= d.
Proof. intros H. induction l as [|y l IH]; intros x []; cbn [fold_right] in H; [subst; lia|apply IH; [lia|assumption]]. Qed.

Section W.
  Variables (nl : nat -> bytes) (colon : bytes) (cl : bytes).
  Hypothesis ws : forall n, forallb is_ws (nl n) = true.
  Hypothesis col : colon = x3a :: cl.
  Hypothesis cws : forallb is_ws cl = true.

  (** a value does not start with a space or a closing bracket *)
  Lemma jwrite_head n j : jnums j = true -> exists b t, jwrite nl colon n j = b :: t /\ is_ws b = false /\ Byte.eqb b x5d = false.
  Proof.
    destruct j as [|[]|s|s|[|]|[|]]; intros H; try (eexists _, _; split; [reflexivity|]; split; reflexivity).
    cbn [jwrite]. cbn [jnums] in H. apply num_ok_of in H. unfold num_of in H. destruct (scan_num (sv s)) as [[t [|]]|] eqn:E; try discriminate.
    injection H as H. apply scan_num_spec in E as (_ & _ & b & t' & -> & D).
    unfold num_norm in H. destruct (bytes_eqb (b :: t') [x2d; x30]); rewrite <- H.
    - exists x30, []. auto.
    - exists b, t'. split; [reflexivity|]. destruct D as [->|D]; [auto|].
      unfold is_ws. rewrite !(digit_neq b) by (exact D || reflexivity). auto.
  Qed.

  Lemma jdec_write j : forall d n w r, jnums j = true -> jdepth j <= d -> stops r = true -> forallb is_ws w = true ->
    jdec d (w ++ jwrite nl colon n j ++ r) = Some (j, r).
  Proof.
    induction j as [|[]|s|s|l IH|l IH] using jval_ind2; intros d n w r N D S W.
    1-3: destruct d; cbn [jdec]; rewrite skip_ws_app by exact W; reflexivity.
    - destruct (jwrite_head n (JNum s) N) as (b & t & E & B & _). cbn [jnums jwrite] in *.
      assert (X : Byte.eqb b x22 = false /\ Byte.eqb b x5b = false /\ Byte.eqb b x7b = false /\ Byte.eqb b x6e = false
                  /\ Byte.eqb b x74 = false /\ Byte.eqb b x66 = false).
      { pose proof (num_ok_of _ N) as O. unfold num_of in O. destruct (scan_num (sv s)) as [[u [|]]|] eqn:Q; try discriminate. injection O as O.
        apply scan_num_spec in Q as (_ & _ & c & t' & -> & Dc). unfold num_norm in O.
        destruct (bytes_eqb (c :: t') [x2d; x30]); rewrite <- O in E; injection E as <- <-; [repeat split; reflexivity|].
        destruct Dc as [->|Dc]; [repeat split; reflexivity|]. rewrite !(digit_neq c) by (exact Dc || reflexivity). auto 6. }
      destruct X as (X1 & X2 & X3 & X4 & X5 & X6).
      destruct (num_ok_scan (sv s) r N S) as [Sc _]. unfold jnumber in *.
      destruct d; cbn [jdec]; rewrite skip_ws_app by exact W; rewrite E in *; cbn [app] in *; rewrite (skip_ws_stop b _ B), X1, X2, X3, X4, X5, X6;
        unfold jnumber; rewrite Sc, <- E, num_text_ok; reflexivity.
    - destruct d; cbn [jdec jwrite]; rewrite skip_ws_app by exact W; unfold jquote; cbn [app]; rewrite (skip_ws_stop x22) by reflexivity;
        change (Byte.eqb x22 x22) with true; cbv iota; rewrite <- app_assoc; cbn [app]; rewrite jstring_quoted; reflexivity.
    - destruct d as [|d]; [cbn [jdepth] in D; lia|]. cbn [jdec]. rewrite skip_ws_app by exact W. cbn [jnums] in N. rewrite forallb_forall in N.
      rewrite Forall_forall in IH. destruct l as [|x l]; [reflexivity|].
      change (jwrite nl colon n (JArr (x :: l))) with (x5b :: commas (nl (Datatypes.S n)) (map (jwrite nl colon (Datatypes.S n)) (x :: l)) ++ nl n ++ [x5d]).
      set (L := x :: l) in *. cbn [app]. rewrite (skip_ws_stop x5b) by reflexivity. change (Byte.eqb x5b x22) with false. change (Byte.eqb x5b x5b) with true.
      cbv iota. rewrite <- !app_assoc. cbn [app].
      assert (J : jseq (jdec d) x5d (commas (nl (Datatypes.S n)) (map (jwrite nl colon (Datatypes.S n)) L) ++ nl n ++ x5d :: r) = Some (L, r)).
      { unfold jseq. destruct (commas_head (nl (Datatypes.S n)) (jwrite nl colon (Datatypes.S n)) x l) as (t & T).
        destruct (jwrite_head (Datatypes.S n) x (N x (or_introl eq_refl))) as (b & t' & E & B & B').
        assert (Q : exists q, skip_ws (commas (nl (Datatypes.S n)) (map (jwrite nl colon (Datatypes.S n)) L) ++ nl n ++ x5d :: r) = b :: q).
        { unfold L. rewrite T, E. rewrite <- !app_assoc. rewrite skip_ws_app by apply ws. cbn [app]. rewrite (skip_ws_stop b _ B). eauto. }
        destruct Q as (q & ->). rewrite B'.
        apply jitems_commas; try reflexivity; [apply ws| |discriminate|].
        - intros y r' I R'. apply IH; auto. apply (fold_le jdepth L d D y I).
        - rewrite app_length. pose proof (commas_len (nl (Datatypes.S n)) (jwrite nl colon (Datatypes.S n)) L) as CL.
          assert (List.length L <= List.length (commas (nl (Datatypes.S n)) (map (jwrite nl colon (Datatypes.S n)) L))); [|lia].
          apply CL. intros y I. destruct (jwrite_head (Datatypes.S n) y (N y I)) as (c & u & -> & _). discriminate. }
      rewrite J. reflexivity.
    - destruct d as [|d]; [cbn [jdepth] in D; lia|]. cbn [jdec]. rewrite skip_ws_app by exact W. cbn [jnums] in N. rewrite forallb_forall in N.
      rewrite Forall_forall in IH. destruct l as [|x l]; [reflexivity|].
      pose (pw := (fun p : rstring * jval => match p with (k, v) => jquote (sv k) ++ colon ++ jwrite nl colon (Datatypes.S n) v end) : rstring * jval -> bytes).
      change (jwrite nl colon n (JObj (x :: l))) with (x7b :: commas (nl (Datatypes.S n)) (map pw (x :: l)) ++ nl n ++ [x7d]).
      set (L := x :: l) in *. cbn [app]. rewrite (skip_ws_stop x7b) by reflexivity. change (Byte.eqb x7b x22) with false.
      change (Byte.eqb x7b x5b) with false. change (Byte.eqb x7b x7b) with true. cbv iota. rewrite <- !app_assoc. cbn [app].
      assert (J : jseq (jpair (jdec d)) x7d (commas (nl (Datatypes.S n)) (map pw L) ++ nl n ++ x7d :: r) = Some (L, r)).
      { unfold jseq. destruct (commas_head (nl (Datatypes.S n)) pw x l) as (t & T).
        assert (Q : exists q, skip_ws (commas (nl (Datatypes.S n)) (map pw L) ++ nl n ++ x7d :: r) = x22 :: q).
        { unfold L. rewrite T. rewrite <- !app_assoc. rewrite skip_ws_app by apply ws. destruct x as [k v]. unfold pw, jquote. cbn [app].
          rewrite (skip_ws_stop x22) by reflexivity. eauto. }
        destruct Q as (q & ->). change (Byte.eqb x22 x7d) with false. cbv iota.
        apply jitems_commas; try reflexivity; [apply ws| |discriminate|].
        - intros [k v] r' I R'. unfold pw, jpair, jquote. rewrite <- !app_assoc. rewrite skip_ws_app by apply ws. cbn [app].
          rewrite (skip_ws_stop x22) by reflexivity. change (Byte.eqb x22 x22) with true. cbv iota. rewrite <- app_assoc. cbn [app].
          rewrite jstring_quoted. rewrite col. cbn [app]. rewrite (skip_ws_stop x3a) by reflexivity. change (Byte.eqb x3a x3a) with true. cbv iota.
          rewrite <- col. specialize (IH _ I). cbn [snd] in IH. rewrite IH; auto.
          + apply (N _ I).
          + cbn [jdepth] in D. assert (D' : Datatypes.S (fold_right (fun p m => Nat.max ((fun p => jdepth (snd p)) p) m) 0 L) <= Datatypes.S d).
            { replace (fold_right (fun p m => Nat.max ((fun p => jdepth (snd p)) p) m) 0 L)
                with (fold_right (fun p m => match p with (_, v) => Nat.max (jdepth v) m end) 0 L); [exact D|].
              clear. induction L as [|[] L IH]; [reflexivity|]. cbn [fold_right snd]. rewrite IH. reflexivity. }
            apply (fold_le (fun p => jdepth (snd p)) L d D' (k, v) I).
        - rewrite app_length. pose proof (commas_len (nl (Datatypes.S n)) pw L) as CL.
          assert (List.length L <= List.length (commas (nl (Datatypes.S n)) (map pw L))); [|lia].
          apply CL. intros [k v] I. discriminate. }
      rewrite J. reflexivity.
  Qed.
  Theorem jparse_write j : jnums j = true -> jdepth j <= max_depth -> jparse (jwrite nl colon 0 j) = Some j.
  Proof.
    intros N D. unfold jparse. pose proof (jdec_write j max_depth 0 [] [] N D eq_refl eq_refl) as E. cbn [app] in E. rewrite app_nil_r in E.
    rewrite E. reflexivity.
  Qed.
End W.
Theorem jparse_print j : jnums j = true -> jdepth j <= max_depth -> jparse (jprint j) = Some j.
Proof. apply (jparse_write (fun _ => []) [x3a] []); reflexivity. Qed.
Lemma spaces n : forallb is_ws (repeat x20 n) = true.
Proof. induction n as [|n IH]; [reflexivity|]. exact IH. Qed.
Theorem jparse_pretty j : jnums j = true -> jdepth j <= max_depth -> jparse (jpretty j) = Some j.
Proof. apply (jparse_write (fun n => x0a :: repeat x20 (2 * n)) [x3a; x20] [x20]); try reflexivity. intros n. exact (spaces (2 * n)). Qed.
