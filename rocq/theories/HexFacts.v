(** * Facts about hex encoding and decoding. *)
From Verif Require Import Base BaseFacts Hex.
From Coq Require Import ZifyBool ZifyNat ZifyN.

(** All 256 bytes, for finite sweeps. *)
Definition all_bytes : list byte := map (fun n => u8_of (N.of_nat n)) (seq 0 256).
Lemma all_bytes_complete b : In b all_bytes.
Proof.
  apply in_map_iff. exists (N.to_nat (u8v b)). split.
  - rewrite N2Nat.id. apply u8_of_u8v.
  - apply in_seq. pose proof (u8v_lt b). lia.
Qed.
Lemma byte_sweep (P : byte -> bool) : forallb P all_bytes = true -> forall b, P b = true.
Proof. intros H b. eapply forallb_forall in H; [exact H|apply all_bytes_complete]. Qed.

Lemma hex_byte_val b :
  match hex_byte b with
  | [x; y] => match hex_val x, hex_val y with
              | Some p, Some q => Byte.eqb (u8_of (16 * p + q)) b
              | _, _ => false
              end
  | _ => false
  end = true.
Proof. revert b. apply byte_sweep. vm_compute. reflexivity. Qed.

Lemma hex_decode_encode l : hex_decode (hex_encode l) = Some l.
Proof.
  induction l as [|b l IH]; [reflexivity|].
  unfold hex_encode. cbn [flat_map]. unfold hex_byte at 1. cbn [app].
  cbn [hex_decode]. pose proof (hex_byte_val b) as H. unfold hex_byte in H.
  destruct (hex_val _) as [p|]; [|discriminate].
  destruct (hex_val _) as [q|]; [|discriminate].
  fold (hex_encode l). rewrite IH. apply byte_eqb_eq in H. rewrite H. reflexivity.
Qed.

Lemma hex_encode_inj a b : hex_encode a = hex_encode b -> a = b.
Proof.
  intros H. apply (f_equal hex_decode) in H. rewrite !hex_decode_encode in H. congruence.
Qed.

Lemma hex_encode_length l : length (hex_encode l) = 2 * length l.
Proof.
  unfold hex_encode. induction l as [|b l IH]; cbn; [reflexivity|]. rewrite IH. lia.
Qed.

Lemma hex_encode_app a b : hex_encode (a ++ b) = hex_encode a ++ hex_encode b.
Proof. apply flat_map_app. Qed.

Definition is_lower_hex (c : byte) : bool :=
  let n := u8v c in
  ((48 <=? n) && (n <=? 57) || (97 <=? n) && (n <=? 102))%N.

Lemma hex_byte_lower b : forallb is_lower_hex (hex_byte b) = true.
Proof. revert b. apply byte_sweep. vm_compute. reflexivity. Qed.

Lemma hex_encode_lower l : forallb is_lower_hex (hex_encode l) = true.
Proof.
  induction l as [|b l IH]; [reflexivity|].
  unfold hex_encode; cbn [flat_map]. rewrite forallb_app, hex_byte_lower. exact IH.
Qed.

(** hex encoding is monotone on bytes, hence on strings *)
Definition cmp_eqb (a b : comparison) : bool :=
  match a, b with Eq, Eq | Lt, Lt | Gt, Gt => true | _, _ => false end.
Lemma cmp_eqb_eq a b : cmp_eqb a b = true -> a = b.
Proof. destruct a, b; cbn; congruence. Qed.

Lemma hex_byte_cmp a b : lex (hex_byte a) (hex_byte b) = byte_cmp a b.
Proof.
  apply cmp_eqb_eq. revert b. apply byte_sweep. revert a. apply byte_sweep.
  vm_compute. reflexivity.
Qed.

Lemma hex_encode_lex a b : lex (hex_encode a) (hex_encode b) = lex a b.
Proof.
  revert b; induction a as [|x a IH]; intros [|y b]; try reflexivity.
  unfold hex_encode; cbn [flat_map]. 
  rewrite lex_app by reflexivity. rewrite hex_byte_cmp.
  cbn [lex]. destruct (byte_cmp x y); auto.
Qed.

(** decoding only forgets case *)
Lemma hex_val_digit c :
  match hex_val c with
  | Some n => Byte.eqb (hex_digit n) (lower c) && (n <? 16)%N
  | None => true
  end = true.
Proof. revert c. apply byte_sweep. vm_compute. reflexivity. Qed.

Lemma pair_ind {A} (P : list A -> Prop) :
  P [] -> (forall a, P [a]) -> (forall a b l, P l -> P (a :: b :: l)) -> forall l, P l.
Proof.
  intros H0 H1 H2 l. assert (P l /\ forall a, P (a :: l)) as [H _]; [|exact H].
  induction l as [|x l [IH1 IH2]]; split; auto.
Qed.

Lemma hex_encode_decode s b : hex_decode s = Some b -> hex_encode b = map lower s.
Proof.
  revert b. induction s as [|a|x y s IH] using pair_ind; cbn [hex_decode]; intros b H.
  - injection H as <-. reflexivity.
  - discriminate.
  - pose proof (hex_val_digit x) as Hx. pose proof (hex_val_digit y) as Hy.
    destruct (hex_val x) as [p|]; [|discriminate].
    destruct (hex_val y) as [q|]; [|discriminate].
    destruct (hex_decode s) as [r|]; [|discriminate].
    injection H as <-. unfold hex_encode; cbn [flat_map map].
    fold (hex_encode r). rewrite (IH r eq_refl).
    apply andb_true_iff in Hx as [Hx Hp]. apply andb_true_iff in Hy as [Hy Hq].
    apply byte_eqb_eq in Hx, Hy. rewrite <- Hx, <- Hy.
    apply N.ltb_lt in Hp, Hq. unfold hex_byte. rewrite u8v_u8_of.
    rewrite (N.mod_small (16 * p + q)) by lia.
    cbn [app]. f_equal; [|f_equal].
    + f_equal. symmetry. apply (N.div_unique _ _ _ q); lia.
    + f_equal. symmetry. apply (N.mod_unique _ _ p); lia.
Qed.

Lemma hex_decode_lower s : hex_decode (map lower s) = hex_decode s.
Proof.
  destruct (hex_decode s) as [b|] eqn:E.
  - rewrite <- (hex_encode_decode _ _ E). apply hex_decode_encode.
  - revert E. induction s as [|a|x y s IH] using pair_ind; cbn [hex_decode map]; auto.
    assert (L : forall c, match hex_val (lower c), hex_val c with
                 | Some a, Some b => N.eqb a b | None, None => true | _, _ => false end = true)
      by (apply byte_sweep; vm_compute; reflexivity).
    pose proof (L x) as Lx. pose proof (L y) as Ly.
    destruct (hex_val (lower x)), (hex_val x); try discriminate Lx; auto.
    destruct (hex_val (lower y)), (hex_val y); try discriminate Ly; auto.
    destruct (hex_decode s) as [r|]; [discriminate|]. intros _.
    rewrite IH; reflexivity.
Qed.

Lemma hex_decode_length s b : hex_decode s = Some b -> length s = 2 * length b.
Proof.
  intros H. apply hex_encode_decode in H. apply (f_equal (@length _)) in H.
  rewrite hex_encode_length, map_length in H. auto.
Qed.

Definition is_hex_char (c : byte) : bool := match hex_val c with Some _ => true | None => false end.
Lemma hex_decode_some s :
  (exists b, hex_decode s = Some b) <-> forallb is_hex_char s = true /\ Nat.even (length s) = true.
Proof.
  induction s as [|a|x y s IH] using pair_ind; cbn [hex_decode forallb length Nat.even].
  - split; eauto.
  - split; [intros (b & H); discriminate|]. intros [_ H]; discriminate.
  - unfold is_hex_char at 1 2. destruct (hex_val x); cbn.
    2: { split; [intros (b & H); discriminate|intros [H _]; discriminate]. }
    destruct (hex_val y); cbn.
    2: { split; [intros (b & H); discriminate|intros [H _]; discriminate]. }
    destruct (hex_decode s); rewrite <- IH; split; intros (z & H); try discriminate; eauto.
Qed.
