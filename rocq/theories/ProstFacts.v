(** * ProstFacts: the protobuf form of a selection. *)
From Verif Require Import Base BaseFacts Utf8 Types Prost SpecProst SerdeFacts.
From Coq Require Import ZifyBool ZifyNat ZifyN.
Open Scope list_scope.

(** ** varints *)
Lemma u8v_of_small n : (n < 256)%N -> u8v (u8_of n) = n.
Proof. intros H. rewrite u8v_u8_of. apply N.mod_small, H. Qed.
Lemma varint_at k : forall n sh r, (n < 2 ^ (7 * N.of_nat (S k)))%N ->
  dec_varint_at (S k) sh (enc_varint k n ++ r) = Some ((n * 2 ^ sh)%N, r).
Proof.
  induction k as [|k IH]; intros n sh r H.
  - cbn [enc_varint]. change (2 ^ (7 * N.of_nat 1))%N with 128%N in H. rewrite (proj2 (N.ltb_lt n 128) H).
    cbn [app dec_varint_at]. rewrite u8v_of_small by lia. rewrite (proj2 (N.ltb_lt n 128) H). reflexivity.
  - cbn [enc_varint]. destruct (n <? 128)%N eqn:E.
    + apply N.ltb_lt in E. cbn [app dec_varint_at]. rewrite u8v_of_small by lia. rewrite (proj2 (N.ltb_lt n 128) E). reflexivity.
    + apply N.ltb_ge in E. cbn [app]. change (dec_varint_at (S (S k)) sh (u8_of (n mod 128 + 128) :: enc_varint k (n / 128) ++ r))
        with (if (u8v (u8_of (n mod 128 + 128)) <? 128)%N then Some ((u8v (u8_of (n mod 128 + 128)) * 2 ^ sh)%N, enc_varint k (n / 128) ++ r)
              else match dec_varint_at (S k) (sh + 7) (enc_varint k (n / 128) ++ r) with
                   | Some (m, r) => Some (((u8v (u8_of (n mod 128 + 128)) - 128) * 2 ^ sh + m)%N, r) | None => None end).
      pose proof (N.mod_lt n 128 ltac:(lia)) as M. rewrite u8v_of_small by lia.
      rewrite (proj2 (N.ltb_ge (n mod 128 + 128) 128)) by lia. rewrite IH.
      * f_equal. f_equal. rewrite N.pow_add_r. change (2 ^ 7)%N with 128%N.
        replace (n mod 128 + 128 - 128)%N with (n mod 128)%N by lia.
        rewrite (N.div_mod n 128) at 3 by lia. lia.
      * apply N.div_lt_upper_bound; [lia|]. replace (7 * N.of_nat (S (S k)))%N with (7 + 7 * N.of_nat (S k))%N in H by lia.
        rewrite N.pow_add_r in H. exact H.
Qed.
Lemma dec_varint_enc n r : (n < 2 ^ 64)%N -> dec_varint (varint n ++ r) = Some (n, r).
Proof.
  intros H. unfold dec_varint, varint. rewrite varint_at.
  - rewrite N.pow_0_r, N.mul_1_r, N.mod_small by exact H. reflexivity.
  - eapply N.lt_le_trans; [exact H|]. apply N.pow_le_mono_r; lia.
Qed.
Lemma dec_varint_at_len k : forall sh l n r, dec_varint_at k sh l = Some (n, r) -> length r < length l.
Proof.
  induction k as [|k IH]; intros sh [|b l] n r H; try discriminate H. cbn [dec_varint_at] in H. destruct (_ <? _)%N.
  - injection H as <- <-. cbn. lia.
  - destruct (dec_varint_at k (sh + 7) l) as [[m r']|] eqn:E; [|discriminate H]. injection H as <- <-. apply IH in E. cbn. lia.
Qed.
Lemma dec_varint_len l n r : dec_varint l = Some (n, r) -> length r < length l.
Proof.
  unfold dec_varint. destruct (dec_varint_at 10 0 l) as [[m r']|] eqn:E; [|discriminate]. intros H. injection H as <- <-.
  eapply dec_varint_at_len, E.
Qed.
Lemma dec_key_enc t w r : (1 <= t)%N -> (w <= 5)%N -> (8 * t + w <= 4294967295)%N -> dec_key (enc_key t w ++ r) = Some (t, w, r).
Proof.
  intros T W B. unfold dec_key, enc_key. rewrite dec_varint_enc by lia.
  assert (D : ((8 * t + w) / 8 = t)%N) by (symmetry; apply (N.div_unique (8 * t + w) 8 t w); lia).
  assert (M : ((8 * t + w) mod 8 = w)%N) by (symmetry; apply (N.mod_unique (8 * t + w) 8 t w); lia).
  cbn zeta. rewrite D, M. rewrite (proj2 (N.ltb_ge _ _)) by lia. rewrite (proj2 (N.ltb_ge _ _)) by lia.
  rewrite (proj2 (N.eqb_neq t 0)) by lia. reflexivity.
Qed.
Lemma dec_key_len l t w r : dec_key l = Some (t, w, r) -> length r < length l.
Proof.
  unfold dec_key. destruct (dec_varint l) as [[k r']|] eqn:E; [|discriminate]. cbn zeta. destruct (_ <? k)%N; [discriminate|].
  destruct (5 <? _)%N; [discriminate|]. destruct (_ =? 0)%N; [discriminate|]. intros H. injection H as <- <- <-.
  eapply dec_varint_len, E.
Qed.
Lemma advance_len n l r : advance n l = Some r -> length r <= length l.
Proof. unfold advance. destruct (_ <=? _)%N; [|discriminate]. intros H. injection H as <-. rewrite skipn_length. lia. Qed.

(** ** fuel *)
Lemma skip_len fuel : (forall d w t l r, skip_field fuel d w t l = Some r -> length r <= length l)
  /\ (forall d t l r, skip_group fuel d t l = Some r -> length r < length l).
Proof.
  induction fuel as [|f [IH1 IH2]]; [split; discriminate|]. split.
  - intros [|d] w t l r H; [discriminate H|]. cbn [skip_field] in H.
    destruct (w =? 0)%N. { destruct (dec_varint l) as [[n r']|] eqn:E; [|discriminate H]. injection H as <-. apply dec_varint_len in E. lia. }
    destruct (w =? 1)%N; [apply advance_len in H; exact H|]. destruct (w =? 5)%N; [apply advance_len in H; exact H|].
    destruct (w =? 2)%N.
    { destruct (dec_varint l) as [[n r']|] eqn:E; [|discriminate H]. apply dec_varint_len in E. apply advance_len in H. lia. }
    destruct (w =? 3)%N; [|discriminate H]. apply IH2 in H. lia.
  - intros d t l r H. cbn [skip_group] in H. destruct (dec_key l) as [[[t' w] r1]|] eqn:K; [|discriminate H]. apply dec_key_len in K.
    destruct (w =? 4)%N.
    + destruct (t' =? t)%N; [|discriminate H]. injection H as <-. exact K.
    + destruct (skip_field f d w t' r1) as [r2|] eqn:E; [|discriminate H]. apply IH1 in E. apply IH2 in H. lia.
Qed.
(** with fuel above twice the length, more fuel changes nothing *)
Lemma skip_fuel f : forall f', 
  (forall d w t l, 2 * length l + 2 <= f -> f <= f' -> skip_field f' d w t l = skip_field f d w t l)
  /\ (forall d t l, 2 * length l + 1 <= f -> f <= f' -> skip_group f' d t l = skip_group f d t l).
Proof.
  induction f as [|f IH]; intros f'; [split; intros; lia|]. destruct f' as [|f']; [split; intros; lia|].
  destruct (IH f') as [IH1 IH2]. split.
  - intros [|d] w t l A B; [reflexivity|]. cbn [skip_field]. rewrite IH2 by lia. reflexivity.
  - intros d t l A B. cbn [skip_group]. destruct (dec_key l) as [[[t' w] r]|] eqn:K; [|reflexivity]. apply dec_key_len in K.
    destruct (w =? 4)%N; [reflexivity|]. rewrite IH1 by lia. destruct (skip_field f d w t' r) as [r'|] eqn:E; [|reflexivity].
    apply (proj1 (skip_len f)) in E. apply IH2; lia.
Qed.
Lemma sel_merge_len s t w l s' r : sel_merge s t w l = Some (s', r) -> length r <= length l.
Proof.
  unfold sel_merge. destruct (t =? 1)%N; [|destruct (t =? 2)%N; [|destruct (t =? 3)%N]].
  - destruct (w =? 0)%N; [|discriminate]. destruct (dec_varint l) as [[n r']|] eqn:E; [|discriminate]. intros H. injection H as _ <-.
    apply dec_varint_len in E. lia.
  - destruct (w =? 0)%N; [|discriminate]. destruct (dec_varint l) as [[n r']|] eqn:E; [|discriminate]. intros H. injection H as _ <-.
    apply dec_varint_len in E. lia.
  - destruct (w =? 2)%N; [|discriminate]. destruct (dec_varint l) as [[n r']|] eqn:E; [|discriminate]. apply dec_varint_len in E.
    destruct (_ <=? _)%N; [|discriminate]. destruct (sub_of utf8_valid _) as [x|]; [|discriminate]. intros H. injection H as _ <-.
    rewrite skipn_length. lia.
  - destruct (skip w t l) as [r'|] eqn:E; [|discriminate]. intros H. injection H as _ <-. apply (proj1 (skip_len _)) in E. exact E.
Qed.
Lemma merge_all_fuel f : forall f' s l, length l <= f -> length l <= f' -> sel_merge_all f s l = sel_merge_all f' s l.
Proof.
  induction f as [|f IH]; intros f' s l A B.
  - destruct l; [|cbn in A; lia]. destruct f'; reflexivity.
  - destruct l as [|b l]; [destruct f'; reflexivity|]. destruct f' as [|f']; [cbn in B; lia|]. cbn [sel_merge_all].
    destruct (dec_key (b :: l)) as [[[t w] r]|] eqn:K; [|reflexivity]. apply dec_key_len in K.
    destruct (sel_merge s t w r) as [[s' r']|] eqn:M; [|reflexivity]. apply sel_merge_len in M. cbn [length] in *. apply IH; lia.
Qed.

(** ** merging without fuel *)
Definition merge_bytes (s : Selection) (l : bytes) : option Selection := sel_merge_all (length l) s l.
Lemma merge_bytes_step s l : merge_bytes s l =
  match l with
  | [] => Some s
  | _ => match dec_key l with
         | None => None
         | Some (t, w, r) => match sel_merge s t w r with Some (s', r') => merge_bytes s' r' | None => None end
         end
  end.
Proof.
  unfold merge_bytes. destruct l as [|b l]; [reflexivity|]. cbn [length sel_merge_all].
  destruct (dec_key (b :: l)) as [[[t w] r]|] eqn:K; [|reflexivity]. apply dec_key_len in K.
  destruct (sel_merge s t w r) as [[s' r']|] eqn:M; [|reflexivity]. apply sel_merge_len in M. cbn [length] in K.
  apply merge_all_fuel; lia.
Qed.
Lemma sel_decode_merge l : sel_decode l = merge_bytes sel_default l.
Proof. reflexivity. Qed.

Lemma merge_field s t w body l s' : (1 <= t)%N -> (w <= 5)%N -> (8 * t + w <= 4294967295)%N ->
  sel_merge s t w (body ++ l) = Some (s', l) -> merge_bytes s ((enc_key t w ++ body) ++ l) = merge_bytes s' l.
Proof.
  intros T W B M. rewrite merge_bytes_step. rewrite <- app_assoc.
  assert (N : exists b r, enc_key t w ++ body ++ l = b :: r).
  { unfold enc_key, varint. cbn [enc_varint]. destruct (_ <? 128)%N; cbn [app]; eauto. }
  pose proof (dec_key_enc t w (body ++ l) T W B) as K. destruct N as (b & r & N). rewrite N in *. rewrite K, M. reflexivity.
Qed.

Lemma sel_encode_merge s0 s r : (N.of_nat (length (sv (sel_text s))) < 2 ^ 64)%N ->
  merge_bytes s0 (sel_encode s ++ r) =
  merge_bytes (mk_selection (if sel_write_in s then true else sel_write_in s0)
                 (if (uv (sel_score s) =? 0)%N then sel_score s0 else sel_score s)
                 (match sv (sel_text s) with [] => sel_text s0 | _ => sel_text s end)) r.
Proof.
  intros L. destruct s as [wi sc tx]. cbn [sel_write_in sel_score sel_text] in *.
  unfold sel_encode. cbn [sel_write_in sel_score sel_text].
  rewrite <- !app_assoc.
  assert (Sc : (uv sc < 2 ^ 32)%N) by exact (uv_lt sc).
  (* write_in *)
  assert (F1 : forall q, merge_bytes s0 ((if wi then enc_key 1 0 ++ varint 1 else []) ++ q)
             = merge_bytes (mk_selection (if wi then true else sel_write_in s0) (sel_score s0) (sel_text s0)) q).
  { intros q. destruct wi; [|destruct s0; reflexivity]. apply merge_field; try lia. unfold sel_merge. cbn [N.eqb Pos.eqb].
    rewrite dec_varint_enc by lia. reflexivity. }
  rewrite F1. clear F1.
  assert (F2 : forall s1 q, merge_bytes s1 ((if (uv sc =? 0)%N then [] else enc_key 2 0 ++ varint (uv sc)) ++ q)
             = merge_bytes (mk_selection (sel_write_in s1) (if (uv sc =? 0)%N then sel_score s1 else sc) (sel_text s1)) q).
  { intros s1 q. destruct (uv sc =? 0)%N; [destruct s1; reflexivity|]. apply merge_field; try lia. unfold sel_merge. cbn [N.eqb Pos.eqb].
    rewrite dec_varint_enc by lia. cbn [sel_write_in sel_text]. do 3 f_equal. apply u_ext. cbn [uv u_of]. apply N.mod_small. exact Sc. }
  rewrite F2. clear F2. cbn [sel_write_in sel_score sel_text].
  destruct (sv tx) as [|c t] eqn:E; [reflexivity|].
  rewrite !app_assoc, <- (app_assoc (enc_key 3 2)). rewrite merge_field with (s' := mk_selection (if wi then true else sel_write_in s0)
    (if (uv sc =? 0)%N then sel_score s0 else sc) tx); try lia; [reflexivity|].
  unfold sel_merge. cbn [N.eqb Pos.eqb sel_write_in sel_score].
  rewrite <- app_assoc, dec_varint_enc by exact L.
  rewrite (proj2 (N.leb_le _ _)) by (rewrite app_length; lia). rewrite Nnat.Nat2N.id.
  rewrite firstn_app, firstn_all, Nat.sub_diag. cbn [firstn]. rewrite app_nil_r, <- E, sub_of_sv.
  rewrite skipn_app, skipn_all, Nat.sub_diag. reflexivity.
Qed.

(** ** the decoder accepts exactly the grammar *)
Lemma dec_at_iff k : forall sh l v r, dec_varint_at k sh l = Some (v, r) <->
  exists p m, l = p ++ r /\ base128 p m /\ length p <= k /\ v = (m * 2 ^ sh)%N.
Proof.
  induction k as [|k IH]; intros sh l v r.
  - split; [discriminate|]. intros (p & m & _ & B & Le & _). destruct B; cbn in Le; lia.
  - split.
    + destruct l as [|b l]; [discriminate|]. cbn [dec_varint_at]. destruct (u8v b <? 128)%N eqn:E.
      * intros H. injection H as <- <-. exists [b], (u8v b). repeat split; [|cbn; lia]. constructor. apply N.ltb_lt, E.
      * apply N.ltb_ge in E. destruct (dec_varint_at k (sh + 7) l) as [[m r']|] eqn:D; [|discriminate]. intros H. injection H as <- <-.
        apply IH in D. destruct D as (p & n & -> & B & Le & ->). exists (b :: p), (u8v b - 128 + 128 * n)%N.
        repeat split; [constructor; assumption|cbn; lia|]. rewrite N.pow_add_r. change (2 ^ 7)%N with 128%N. lia.
    + intros (p & m & -> & B & Le & ->). destruct B as [b Lt|b p n Ge B]; cbn [app dec_varint_at].
      * rewrite (proj2 (N.ltb_lt _ _) Lt). reflexivity.
      * rewrite (proj2 (N.ltb_ge _ _) Ge).
        rewrite (proj2 (IH (sh + 7)%N (p ++ r) (n * 2 ^ (sh + 7))%N r)).
        -- f_equal. f_equal. rewrite N.pow_add_r. change (2 ^ 7)%N with 128%N. lia.
        -- exists p, n. repeat split; auto. cbn in Le. lia.
Qed.
Lemma dec_varint_iff l n r : dec_varint l = Some (n, r) <-> exists p, l = p ++ r /\ a_varint p n.
Proof.
  unfold dec_varint. split.
  - destruct (dec_varint_at 10 0 l) as [[m r']|] eqn:E; [|discriminate]. intros H. injection H as <- <-.
    apply dec_at_iff in E. destruct E as (p & m' & -> & B & Le & ->). exists p. split; [reflexivity|]. exists m'.
    rewrite N.pow_0_r, N.mul_1_r. auto.
  - intros (p & -> & m & B & Le & ->). rewrite (proj2 (dec_at_iff 10 0 (p ++ r) m r)); [reflexivity|].
    exists p, m. rewrite N.pow_0_r, N.mul_1_r. auto.
Qed.
Lemma dec_key_iff l t w r : dec_key l = Some (t, w, r) <-> exists p, l = p ++ r /\ a_key p t w.
Proof.
  unfold dec_key. split.
  - destruct (dec_varint l) as [[k r']|] eqn:E; [|discriminate]. cbn zeta. destruct (4294967295 <? k)%N eqn:E1; [discriminate|].
    destruct (5 <? k mod 8)%N eqn:E2; [discriminate|]. destruct (k / 8 =? 0)%N eqn:E3; [discriminate|]. intros H. injection H as <- <- <-.
    apply dec_varint_iff in E. destruct E as (p & -> & V). exists p. split; [reflexivity|].
    apply N.ltb_ge in E1, E2. apply N.eqb_neq in E3. unfold a_key. rewrite <- (N.div_mod k 8) by lia.
    repeat split; [exact V|lia|lia|]. change (2 ^ 32)%N with 4294967296%N. lia.
  - intros (p & -> & V & T & W & B). change (2 ^ 32)%N with 4294967296%N in B. rewrite (proj2 (dec_varint_iff (p ++ r) (8 * t + w)%N r)) by eauto.
    assert (D : ((8 * t + w) / 8 = t)%N) by (symmetry; apply (N.div_unique (8 * t + w) 8 t w); lia).
    assert (M : ((8 * t + w) mod 8 = w)%N) by (symmetry; apply (N.mod_unique (8 * t + w) 8 t w); lia).
    cbn zeta. rewrite D, M. rewrite (proj2 (N.ltb_ge _ _)) by lia. rewrite (proj2 (N.ltb_ge _ _)) by lia.
    rewrite (proj2 (N.eqb_neq t 0)) by lia. reflexivity.
Qed.
Lemma key_nonempty k t w : a_key k t w -> 1 <= length k.
Proof. intros [(m & B & _) _]. destruct B; cbn; lia. Qed.
Lemma advance_iff n l r : advance n l = Some r <-> exists p, l = p ++ r /\ N.of_nat (length p) = n.
Proof.
  unfold advance. split.
  - destruct (n <=? N.of_nat (length l))%N eqn:E; [|discriminate]. apply N.leb_le in E. intros H. injection H as <-.
    exists (firstn (N.to_nat n) l). split; [symmetry; apply firstn_skipn|]. rewrite firstn_length. lia.
  - intros (p & -> & <-). rewrite (proj2 (N.leb_le _ _)) by (rewrite app_length; lia). rewrite Nnat.Nat2N.id.
    rewrite skipn_app, skipn_all, Nat.sub_diag. reflexivity.
Qed.
Scheme value_mut := Induction for value Sort Prop with group_mut := Induction for group Sort Prop.
Combined Scheme value_group from value_mut, group_mut.
Lemma skip_sound f : (forall d w t l r, skip_field f d w t l = Some r -> exists v, l = v ++ r /\ value d t w v)
  /\ (forall d t l r, skip_group f d t l = Some r -> exists v, l = v ++ r /\ group d t v).
Proof.
  induction f as [|f [IH1 IH2]]; [split; discriminate|]. split.
  - intros [|d] w t l r H; [discriminate H|]. cbn [skip_field] in H.
    destruct (w =? 0)%N eqn:E0. { apply N.eqb_eq in E0 as ->. destruct (dec_varint l) as [[n r']|] eqn:E; [|discriminate H]. injection H as <-.
      apply dec_varint_iff in E. destruct E as (p & -> & V). exists p. split; [reflexivity|]. econstructor; exact V. }
    destruct (w =? 1)%N eqn:E1. { apply N.eqb_eq in E1 as ->. apply advance_iff in H. destruct H as (p & -> & Lp). exists p. split; [reflexivity|]. constructor. lia. }
    destruct (w =? 5)%N eqn:E5. { apply N.eqb_eq in E5 as ->. apply advance_iff in H. destruct H as (p & -> & Lp). exists p. split; [reflexivity|]. constructor. lia. }
    destruct (w =? 2)%N eqn:E2.
    { apply N.eqb_eq in E2 as ->. destruct (dec_varint l) as [[n r']|] eqn:E; [|discriminate H]. apply dec_varint_iff in E.
      destruct E as (p & -> & V). apply advance_iff in H. destruct H as (q & -> & <-). exists (p ++ q). split; [apply app_assoc|]. constructor. exact V. }
    destruct (w =? 3)%N eqn:E3; [|discriminate H]. apply N.eqb_eq in E3 as ->. apply IH2 in H. destruct H as (v & -> & G).
    exists v. split; [reflexivity|]. constructor. exact G.
  - intros d t l r H. cbn [skip_group] in H. destruct (dec_key l) as [[[t' w] r1]|] eqn:K; [|discriminate H]. apply dec_key_iff in K.
    destruct K as (k & -> & K). destruct (w =? 4)%N eqn:E4.
    + apply N.eqb_eq in E4 as ->. destruct (t' =? t)%N eqn:Et; [|discriminate H]. apply N.eqb_eq in Et as ->. injection H as <-. exists k. split; [reflexivity|]. constructor; exact K.
    + apply N.eqb_neq in E4. destruct (skip_field f d w t' r1) as [r2|] eqn:E; [|discriminate H]. apply IH1 in E. destruct E as (v & -> & V).
      apply IH2 in H. destruct H as (q & -> & G). exists (k ++ v ++ q). rewrite <- !app_assoc. split; [reflexivity|]. econstructor; eassumption.
Qed.
Lemma skip_complete :
  (forall d t w v, value d t w v -> forall f r, 2 * length v + 2 <= f -> skip_field f d w t (v ++ r) = Some r)
  /\ (forall d t l, group d t l -> forall f r, 2 * length l + 1 <= f -> skip_group f d t (l ++ r) = Some r).
Proof.
  apply value_group.
  - intros d t l n V [|f] r F; [lia|]. cbn [skip_field N.eqb]. rewrite (proj2 (dec_varint_iff (l ++ r) n r)) by eauto. reflexivity.
  - intros d t l E [|f] r F; [lia|]. cbn [skip_field N.eqb Pos.eqb]. apply advance_iff. exists l. split; [reflexivity|lia].
  - intros d t l E [|f] r F; [lia|]. cbn [skip_field N.eqb Pos.eqb]. apply advance_iff. exists l. split; [reflexivity|lia].
  - intros d t p l V [|f] r F; [lia|]. cbn [skip_field N.eqb Pos.eqb]. rewrite <- app_assoc.
    rewrite (proj2 (dec_varint_iff (p ++ l ++ r) (N.of_nat (length l)) (l ++ r))) by eauto. apply advance_iff. eauto.
  - intros d t l G IH [|f] r F; [lia|]. cbn [skip_field N.eqb Pos.eqb]. apply IH. lia.
  - intros d t k K [|f] r F; [lia|]. cbn [skip_group]. rewrite (proj2 (dec_key_iff (k ++ r) t 4%N r)) by eauto.
    rewrite !N.eqb_refl. reflexivity.
  - intros d t k t' w v l K W V IH1 G IH2 [|f] r F; [lia|]. cbn [skip_group]. rewrite <- !app_assoc.
    rewrite (proj2 (dec_key_iff (k ++ v ++ l ++ r) t' w (v ++ l ++ r))) by eauto.
    rewrite (proj2 (N.eqb_neq w 4) W). pose proof (key_nonempty _ _ _ K) as Kn. rewrite !app_length in F.
    rewrite IH1 by lia. apply IH2. lia.
Qed.
Lemma skip_iff w t l r : skip w t l = Some r <-> exists v, l = v ++ r /\ value 100 t w v.
Proof.
  split; [apply (proj1 (skip_sound _))|]. intros (v & -> & V). unfold skip. apply (proj1 skip_complete); [exact V|].
  rewrite app_length. lia.
Qed.
Definition apply_field (s : Selection) (f : field) : Selection := meaning s [f].
Lemma merge_iff s t w l s' r : (1 <= t)%N -> sel_merge s t w l = Some (s', r) <->
  exists v, l = v ++ r /\ ((t = 1 /\ w = 0 /\ exists n, a_varint v n /\ s' = apply_field s (FWriteIn (negb (n =? 0))))
    \/ (t = 2 /\ w = 0 /\ exists n, a_varint v n /\ s' = apply_field s (FScore (u_of 4 n)))
    \/ (t = 3 /\ w = 2 /\ exists p x, v = p ++ sv x /\ a_varint p (N.of_nat (length (sv x))) /\ s' = apply_field s (FText x))
    \/ (3 < t /\ value 100 t w v /\ s' = s))%N.
Proof.
  intros T. unfold sel_merge. split.
  - destruct (t =? 1)%N eqn:T1; [|destruct (t =? 2)%N eqn:T2; [|destruct (t =? 3)%N eqn:T3]].
    + apply N.eqb_eq in T1 as ->. destruct (w =? 0)%N eqn:W; [|discriminate]. apply N.eqb_eq in W as ->. destruct (dec_varint l) as [[n r']|] eqn:E; [|discriminate]. intros H. injection H as <- <-.
      apply dec_varint_iff in E. destruct E as (p & -> & V). exists p. split; [reflexivity|]. left. repeat split. exists n. split; [exact V|reflexivity].
    + apply N.eqb_eq in T2 as ->. destruct (w =? 0)%N eqn:W; [|discriminate]. apply N.eqb_eq in W as ->. destruct (dec_varint l) as [[n r']|] eqn:E; [|discriminate]. intros H. injection H as <- <-.
      apply dec_varint_iff in E. destruct E as (p & -> & V). exists p. split; [reflexivity|]. right; left. repeat split. exists n. split; [exact V|reflexivity].
    + apply N.eqb_eq in T3 as ->. destruct (w =? 2)%N eqn:W; [|discriminate]. apply N.eqb_eq in W as ->. destruct (dec_varint l) as [[n r']|] eqn:E; [|discriminate].
      destruct (n <=? N.of_nat (length r'))%N eqn:Le; [|discriminate]. apply N.leb_le in Le.
      destruct (sub_of utf8_valid _) as [x|] eqn:U; [|discriminate]. intros H. injection H as <- <-. apply sub_of_some in U.
      apply dec_varint_iff in E. destruct E as (p & -> & V). exists (p ++ sv x).
      rewrite <- app_assoc, U, firstn_skipn. split; [reflexivity|]. right; right; left. split; [reflexivity|]. split; [reflexivity|]. exists p, x.
      split; [f_equal; symmetry; exact U|]. split; [|reflexivity]. pose proof (f_equal (@length byte) U) as UL. rewrite firstn_length in UL.
      match goal with |- a_varint p ?m => replace m with n; [exact V|] end.
      etransitivity; [|apply f_equal; symmetry; exact UL]. lia.
    + apply N.eqb_neq in T1, T2, T3. destruct (skip w t l) as [r'|] eqn:E; [|discriminate]. intros H. injection H as <- <-.
      apply skip_iff in E. destruct E as (v & -> & V). exists v. split; [reflexivity|]. right; right; right. repeat split; [lia|exact V].
  - intros (v & -> & [(-> & -> & n & V & ->)|[(-> & -> & n & V & ->)|[(-> & -> & p & x & -> & V & ->)|(T3 & V & ->)]]]); cbn [N.eqb Pos.eqb].
    + rewrite (proj2 (dec_varint_iff (v ++ r) n r)) by eauto. reflexivity.
    + rewrite (proj2 (dec_varint_iff (v ++ r) n r)) by eauto. reflexivity.
    + rewrite <- app_assoc. rewrite (proj2 (dec_varint_iff (p ++ sv x ++ r) (N.of_nat (length (sv x))) (sv x ++ r))) by eauto.
      rewrite (proj2 (N.leb_le _ _)) by (rewrite app_length; lia). rewrite Nnat.Nat2N.id, firstn_app, firstn_all, Nat.sub_diag.
      cbn [firstn]. rewrite app_nil_r, sub_of_sv, skipn_app, skipn_all, Nat.sub_diag. reflexivity.
    + rewrite (proj2 (N.eqb_neq t 1)), (proj2 (N.eqb_neq t 2)), (proj2 (N.eqb_neq t 3)) by lia.
      rewrite (proj2 (skip_iff w t (v ++ r) r)) by eauto. reflexivity.
Qed.
Lemma meaning_cons s f fs : meaning s (f :: fs) = meaning (apply_field s f) fs.
Proof. destruct f; reflexivity. Qed.
Lemma merge_bytes_sound n : forall l s s', length l <= n -> merge_bytes s l = Some s' -> exists fs, message l fs /\ s' = meaning s fs.
Proof.
  induction n as [|n IH]; intros l s s' Le H; rewrite merge_bytes_step in H; (destruct l as [|b l]; [injection H as <-; exists []; split; [constructor|destruct s; reflexivity]|]);
    [cbn in Le; lia|].
  destruct (dec_key (b :: l)) as [[[t w] r]|] eqn:K; [|discriminate H]. pose proof (dec_key_len _ _ _ _ K) as KL. apply dec_key_iff in K. destruct K as (k & -> & K).
  destruct (sel_merge s t w r) as [[s1 r1]|] eqn:M; [|discriminate H]. pose proof (sel_merge_len _ _ _ _ _ _ M) as ML.
  apply IH in H; [|cbn in KL, Le; lia]. destruct H as (fs & Ms & ->).
  apply merge_iff in M; [|apply K]. destruct M as (v & -> & M). rewrite app_assoc.
  destruct M as [(-> & -> & n1 & V & ->)|[(-> & -> & n1 & V & ->)|[(-> & -> & p & x & -> & V & ->)|(T3 & V & ->)]]].
  - exists (FWriteIn (negb (n1 =? 0)%N) :: fs). split; [constructor; [|exact Ms]|symmetry; apply meaning_cons]. constructor; assumption.
  - exists (FScore (u_of 4 n1) :: fs). split; [constructor; [|exact Ms]|symmetry; apply meaning_cons]. constructor; assumption.
  - exists (FText x :: fs). split; [constructor; [|exact Ms]|symmetry; apply meaning_cons]. constructor; assumption.
  - exists (FOther :: fs). split; [constructor; [|exact Ms]|rewrite meaning_cons; destruct s; reflexivity]. econstructor; eassumption.
Qed.
Lemma merge_bytes_complete l fs : message l fs -> forall s, merge_bytes s l = Some (meaning s fs).
Proof.
  induction 1 as [|f l x xs F M IH]; intros s; [destruct s; reflexivity|]. rewrite meaning_cons.
  assert (St : forall k v t w, a_key k t w -> (exists s1, s1 = apply_field s x /\ sel_merge s t w (v ++ l) = Some (s1, l)) ->
    merge_bytes s ((k ++ v) ++ l) = Some (meaning (apply_field s x) xs)).
  { intros k v t w K (s1 & -> & Mg). rewrite merge_bytes_step, <- app_assoc. pose proof (key_nonempty _ _ _ K) as Kn.
    pose proof (proj2 (dec_key_iff (k ++ v ++ l) t w (v ++ l)) (ex_intro _ k (conj eq_refl K))) as Dk.
    destruct (k ++ v ++ l) as [|b q] eqn:Eq; [destruct k; [cbn in Kn; lia|discriminate Eq]|].
    rewrite Dk, Mg. apply IH. }
  destruct F as [k v n K V|k v n K V|k p t K V|k t w v T K V].
  - eapply St; [exact K|]. eexists; split; [reflexivity|]. apply merge_iff; [lia|]. exists v. split; [reflexivity|]. left. eauto.
  - eapply St; [exact K|]. eexists; split; [reflexivity|]. apply merge_iff; [lia|]. exists v. split; [reflexivity|]. right; left. eauto.
  - eapply St; [exact K|]. eexists; split; [reflexivity|]. apply merge_iff; [lia|]. exists (p ++ sv t). split; [reflexivity|]. right; right; left. eauto 10.
  - eapply St; [exact K|]. eexists; split; [reflexivity|]. apply merge_iff; [lia|]. exists v. split; [reflexivity|]. right; right; right.
    split; [exact T|]. split; [exact V|]. destruct s; reflexivity.
Qed.
Lemma sel_decode_iff l s : sel_decode l = Some s <-> exists fs, message l fs /\ s = meaning sel_default fs.
Proof.
  rewrite sel_decode_merge. split; [apply merge_bytes_sound with (n := length l); lia|].
  intros (fs & M & ->). apply merge_bytes_complete, M.
Qed.
