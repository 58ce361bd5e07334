(** * ValueFacts: numerals and [serde_json::Value]. *)
From Verif Require Import Base BaseFacts HexFacts Utf8 Cbor CborFacts Value Types MapFacts.
Open Scope list_scope.

(** ** texts of digits *)
Definition ends (r : bytes) : bool := match r with b :: _ => negb (digit b) | [] => true end.
Lemma digits_spec l : forall d r, digits l = (d, r) -> l = d ++ r /\ forallb digit d = true /\ ends r = true.
Proof.
  induction l as [|b l IH]; intros d r; cbn [digits].
  - intros K. injection K as <- <-. auto.
  - destruct (digit b) eqn:E.
    + destruct (digits l) as [d' r'] eqn:F. intros K. injection K as <- <-. destruct (IH _ _ eq_refl) as (-> & B & G).
      cbn [app forallb]. rewrite E, B. auto.
    + intros K. injection K as <- <-. cbn [app ends forallb]. rewrite E. auto.
Qed.
Lemma digits_app d r : forallb digit d = true -> ends r = true -> digits (d ++ r) = (d, r).
Proof.
  intros H E. induction d as [|b d IH]; cbn [app].
  - destruct r as [|b r]; [reflexivity|]. cbn [ends] in E. cbn [digits]. apply negb_true_iff in E. rewrite E. reflexivity.
  - cbn [forallb] in H. apply andb_true_iff in H as [H1 H2]. cbn [digits]. rewrite H1, (IH H2). reflexivity.
Qed.

(** what may follow a numeral *)
Definition stops (r : bytes) : bool :=
  match r with b :: _ => negb (digit b || Byte.eqb b x2e || Byte.eqb b x65 || Byte.eqb b x45) | [] => true end.
Lemma stops_ends r : stops r = true -> ends r = true.
Proof. destruct r as [|b r]; [auto|]. cbn [stops ends]. destruct (digit b); [discriminate|auto]. Qed.
Lemma beq a b : Byte.eqb a b = true <-> a = b.
Proof. split; [apply Byte.byte_dec_bl|apply Byte.byte_dec_lb]. Qed.
Lemma scan_int_spec l i r : scan_int l = Some (i, r) ->
  l = i ++ r /\ forallb digit i = true /\ i <> [] /\ forall r', ends r' = true -> scan_int (i ++ r') = Some (i, r').
Proof.
  unfold scan_int. destruct (digits l) as [d r0] eqn:E. destruct (digits_spec _ _ _ E) as (-> & D & _).
  destruct d as [|b d]; [discriminate|].
  destruct (Byte.eqb b x30 && negb (Nat.eqb (length d) 0)) eqn:Q; [discriminate|].
  intros K. injection K as <- <-. repeat split; auto; [discriminate|].
  intros r' R. rewrite (digits_app _ _ D R), Q. reflexivity.
Qed.
Lemma scan_frac_spec l f r : scan_frac l = Some (f, r) ->
  (f = [] /\ l = r \/ exists d, f = x2e :: d /\ l = f ++ r /\ forallb digit d = true /\ d <> []).
Proof.
  unfold scan_frac. destruct l as [|b l]; [intros K; injection K as <- <-; auto|].
  destruct (Byte.eqb b x2e) eqn:B; [|intros K; injection K as <- <-; auto]. apply beq in B. subst b.
  destruct (digits l) as [d r0] eqn:E. destruct (digits_spec _ _ _ E) as (-> & D & _).
  destruct d as [|c d]; [discriminate|]. intros K. injection K as <- <-. right. exists (c :: d). repeat split; auto. discriminate.
Qed.
Lemma scan_sign_spec l s r : scan_sign l = (s, r) ->
  (s = [] \/ s = [x2d]) /\ exists s0, l = s0 ++ r /\ length s <= length s0.
Proof.
  unfold scan_sign. destruct l as [|b l]; [intros K; injection K as <- <-; split; [auto|]; exists []; auto|].
  destruct (Byte.eqb b x2b); [intros K; injection K as <- <-; split; [auto|]; exists [b]; split; [reflexivity|cbn; lia]|].
  destruct (Byte.eqb b x2d) eqn:E; intros K; injection K as <- <-.
  - apply beq in E. subst. split; [auto|]. exists [x2d]. auto.
  - split; [auto|]. exists []. auto.
Qed.
Lemma scan_exp_spec l e r : scan_exp l = Some (e, r) ->
  (e = [] /\ l = r \/ exists s d c s0, e = x65 :: s ++ d /\ (s = [] \/ s = [x2d]) /\ forallb digit d = true /\ d <> []
                        /\ l = c :: s0 ++ d ++ r /\ length s <= length s0).
Proof.
  unfold scan_exp. destruct l as [|c l]; [intros K; injection K as <- <-; auto|].
  destruct (Byte.eqb c x65 || Byte.eqb c x45); [|intros K; injection K as <- <-; auto]. right.
  destruct (scan_sign l) as [s r1] eqn:E. apply scan_sign_spec in E as (S1 & s0 & -> & L).
  destruct (digits r1) as [d r0] eqn:F. destruct (digits_spec _ _ _ F) as (-> & D & _).
  destruct d as [|b d]; [discriminate|]. injection H as <- <-. exists s, (b :: d), c, s0. repeat split; auto; discriminate.
Qed.
Lemma digit_neq b c : digit b = true -> digit c = false -> Byte.eqb b c = false.
Proof. intros A B. destruct (Byte.eqb b c) eqn:E; [|reflexivity]. apply beq in E. congruence. Qed.
Lemma scan_exp_digit s d r' : (s = [] \/ s = [x2d]) -> forallb digit d = true -> d <> [] -> ends r' = true ->
  scan_exp (x65 :: (s ++ d) ++ r') = Some (x65 :: s ++ d, r').
Proof.
  intros S D N R. unfold scan_exp. cbn [Byte.eqb Byte.to_bits]. rewrite <- app_assoc.
  assert (E : scan_sign (s ++ d ++ r') = (s, d ++ r')).
  { destruct S as [->| ->]; [|reflexivity]. cbn [app]. destruct d as [|b d]; [congruence|]. cbn [forallb] in D. apply andb_true_iff in D as [D _].
    cbn [app]. unfold scan_sign. rewrite !(digit_neq b) by (exact D || reflexivity). reflexivity. }
  rewrite E, (digits_app _ _ D R). destruct d; [congruence|reflexivity].
Qed.
Lemma stops_cons b r : stops (b :: r) = true -> digit b = false /\ Byte.eqb b x2e = false /\ Byte.eqb b x65 = false /\ Byte.eqb b x45 = false.
Proof. cbn [stops]. rewrite negb_true_iff, !orb_false_iff. tauto. Qed.

(** scanning the text of a scanned numeral again *)
Lemma scan_num_spec l t r : scan_num l = Some (t, r) ->
  length t + length r <= length l /\ (forall r', stops r' = true -> scan_num (t ++ r') = Some (t, r'))
  /\ exists b t', t = b :: t' /\ (b = x2d \/ digit b = true).
Proof.
  unfold scan_num. destruct (scan_minus l) as [s l0] eqn:H0.
  assert (S : (s = [] \/ s = [x2d]) /\ l = s ++ l0).
  { unfold scan_minus in H0. destruct l as [|b l]; [injection H0 as <- <-; auto|].
    destruct (Byte.eqb b x2d) eqn:E; injection H0 as <- <-; [apply beq in E; subst|]; auto. }
  destruct S as [S ->].
  destruct (scan_int l0) as [[i l1]|] eqn:I; [|discriminate]. apply scan_int_spec in I as (-> & DI & NI & RI).
  destruct (scan_frac l1) as [[f l2]|] eqn:F; [|discriminate]. apply scan_frac_spec in F.
  destruct (scan_exp l2) as [[e l3]|] eqn:E; [|discriminate]. apply scan_exp_spec in E.
  intros K. injection K as <- <-. split; [|split].
  - rewrite !app_length.
    assert (length f + length l2 <= length l1) by (destruct F as [(-> & ->)|(d & -> & -> & _)]; rewrite ?app_length; cbn [length]; lia).
    assert (length e + length l3 <= length l2).
    { destruct E as [[-> ->]|(a & d & c & s0 & -> & _ & _ & _ & -> & L)]; cbn [length]; rewrite ?app_length; lia. }
    lia.
  - intros r' R.
    assert (X : scan_minus ((s ++ i ++ f ++ e) ++ r') = (s, i ++ f ++ e ++ r')).
    { rewrite <- !app_assoc. destruct S as [->| ->]; [|reflexivity]. cbn [app]. destruct i as [|b i]; [congruence|].
      cbn [forallb] in DI. apply andb_true_iff in DI as [DI _]. cbn [app]. unfold scan_minus.
      rewrite (digit_neq b) by (exact DI || reflexivity). reflexivity. }
    rewrite X. clear X.
    assert (EE : ends (e ++ r') = true /\ scan_exp (e ++ r') = Some (e, r') /\ scan_frac (e ++ r') = Some ([], e ++ r')).
    { destruct E as [[-> ->]|(a & d & c & s0 & -> & A & D & N & -> & L)].
      - cbn [app]. split; [apply stops_ends, R|]. destruct r' as [|b r']; [auto|]. apply stops_cons in R as (_ & R1 & R2 & R3).
        unfold scan_exp, scan_frac. rewrite R1, R2, R3. auto.
      - split; [reflexivity|]. split; [|reflexivity]. change ((x65 :: a ++ d) ++ r') with (x65 :: (a ++ d) ++ r').
        apply scan_exp_digit; auto. apply stops_ends, R. }
    destruct EE as (E1 & E2 & E3).
    assert (FF : ends (f ++ e ++ r') = true /\ scan_frac (f ++ e ++ r') = Some (f, e ++ r')).
    { destruct F as [(-> & ->)|(d & -> & -> & D & N)]; [split; assumption|]. split; [reflexivity|].
      change ((x2e :: d) ++ e ++ r') with (x2e :: d ++ e ++ r'). unfold scan_frac.
      change (Byte.eqb x2e x2e) with true. cbv iota. rewrite (digits_app _ _ D E1).
      destruct d; [congruence|reflexivity]. }
    destruct FF as [F1 F2]. rewrite (RI _ F1), F2, E2. reflexivity.
  - destruct S as [->| ->].
    + destruct i as [|b i]; [congruence|]. cbn [forallb] in DI. apply andb_true_iff in DI as [DI _]. cbn [app]. eauto.
    + cbn [app]. eauto.
Qed.
Lemma num_of_spec s t : num_of s = Some t -> num_ok t = true /\ length t <= length s.
Proof.
  unfold num_of, num_ok. destruct (scan_num s) as [[t0 [|]]|] eqn:E; try discriminate. intros K. injection K as <-.
  apply scan_num_spec in E as (L & R & _). cbn [length] in L. specialize (R [] eq_refl). rewrite app_nil_r in R.
  unfold num_norm. destruct (bytes_eqb t0 [x2d; x30]) eqn:B.
  - apply bytes_eqb_eq in B. subst. split; [reflexivity|cbn [length] in *; lia].
  - split; [|lia]. unfold num_of. rewrite R. unfold num_norm. rewrite B. apply bytes_eqb_eq. reflexivity.
Qed.
Lemma num_ok_of s : num_ok s = true -> num_of s = Some s.
Proof. unfold num_ok. destruct (num_of s) as [t|]; [|discriminate]. intros H. apply bytes_eqb_eq in H. congruence. Qed.
Lemma num_ok_scan s r : num_ok s = true -> stops r = true -> scan_num (s ++ r) = Some (s, r) /\ num_norm s = s.
Proof.
  intros H R. apply num_ok_of in H. unfold num_of in H. destruct (scan_num s) as [[t [|]]|] eqn:E; try discriminate.
  injection H as H. unfold num_norm in H. destruct (bytes_eqb t [x2d; x30]) eqn:B.
  - subst s. apply bytes_eqb_eq in B. subst t. vm_compute in E. discriminate.
  - subst t. apply scan_num_spec in E as (_ & E & _). split; [apply E, R|]. unfold num_norm. rewrite B. reflexivity.
Qed.

(** ** decimal numerals *)
Lemma u8v_dig n : (n < 10)%N -> u8v (u8_of (48 + n)) = (48 + n)%N.
Proof. intros H. rewrite u8v_u8_of. apply N.mod_small. lia. Qed.
Lemma digit_dig n : (n < 10)%N -> digit (u8_of (48 + n)) = true.
Proof. intros H. unfold digit, in_range. rewrite u8v_dig by exact H. lia. Qed.
Lemma dec_digits f : forall n, forallb digit (dec_fuel f n) = true.
Proof.
  induction f as [|f IH]; intros n; cbn [dec_fuel]; [reflexivity|]. destruct (N.ltb_spec n 10).
  - cbn [forallb]. rewrite digit_dig by assumption. reflexivity.
  - rewrite forallb_app, IH. cbn [forallb]. rewrite digit_dig by (apply N.mod_lt; lia). reflexivity.
Qed.
Lemma dec_len f : forall n, length (dec_fuel f n) <= f.
Proof.
  induction f as [|f IH]; intros n; cbn [dec_fuel]; [auto|]. destruct (n <? 10)%N; [cbn; lia|].
  rewrite app_length. specialize (IH (n / 10)%N). cbn [length]. lia.
Qed.
Lemma undec_app a b : undec (a ++ [b]) = (10 * undec a + (u8v b - 48))%N.
Proof. unfold undec. rewrite fold_left_app. reflexivity. Qed.
Lemma undec_dec f : forall n, (n < 10 ^ N.of_nat f)%N -> undec (dec_fuel f n) = n.
Proof.
  induction f as [|f IH]; intros n H; cbn [dec_fuel].
  - cbn in H. unfold undec. cbn. lia.
  - destruct (N.ltb_spec n 10).
    + unfold undec. cbn [fold_left]. rewrite u8v_dig by assumption. lia.
    + rewrite undec_app, IH.
      * rewrite u8v_dig by (apply N.mod_lt; lia). pose proof (N.div_mod n 10 ltac:(lia)). lia.
      * replace (N.of_nat (S f)) with (N.succ (N.of_nat f)) in H by lia. rewrite N.pow_succ_r' in H. apply N.div_lt_upper_bound; lia.
Qed.
Lemma dec_head f : forall n, (n < 10 ^ N.of_nat (S f))%N -> exists b r, dec_fuel (S f) n = b :: r /\ (b = x30 -> r = []).
Proof.
  induction f as [|f IH]; intros n H; cbn [dec_fuel]; destruct (N.ltb_spec n 10) as [L|L].
  1,3: exists (u8_of (48 + n)), []; auto.
  - change (10 ^ N.of_nat 1)%N with 10%N in H. lia.
  - destruct (IH (n / 10)%N) as (b & r & E & Z).
    { replace (N.of_nat (S (S f))) with (N.succ (N.of_nat (S f))) in H by lia. rewrite N.pow_succ_r' in H. apply N.div_lt_upper_bound; lia. }
    assert (NZ : b <> x30).
    { intros ->. specialize (Z eq_refl). subst r.
      assert (U : undec (dec_fuel (S f) (n / 10)) = (n / 10)%N).
      { apply undec_dec. replace (N.of_nat (S (S f))) with (N.succ (N.of_nat (S f))) in H by lia. rewrite N.pow_succ_r' in H. apply N.div_lt_upper_bound; lia. }
      rewrite E in U. change (undec [x30]) with 0%N in U. pose proof (N.div_mod n 10 ltac:(lia)).
      pose proof (N.mod_lt n 10 ltac:(lia)). lia. }
    cbn [dec_fuel] in E. rewrite E. cbn [app]. exists b, (r ++ [u8_of (48 + n mod 10)]). split; [reflexivity|congruence].
Qed.
Lemma dec20_ok n : (n < 10 ^ 20)%N -> scan_int (dec_fuel 20 n) = Some (dec_fuel 20 n, []).
Proof.
  intros H. destruct (dec_head 19 n H) as (b & r & E & Z). pose proof (dec_digits 20 n) as D. rewrite E in *.
  unfold scan_int. rewrite <- (app_nil_r (b :: r)), (digits_app _ [] D eq_refl), app_nil_r.
  destruct (Byte.eqb b x30) eqn:Q; [|reflexivity]. apply beq in Q. rewrite (Z Q). reflexivity.
Qed.
Lemma big20 n : (n <= 2 ^ 64)%N -> (n < 10 ^ 20)%N.
Proof. intros H. assert (2 ^ 64 < 10 ^ 20)%N by (vm_compute; reflexivity). lia. Qed.
Lemma pow256_8 : pow256 8 = (2 ^ 64)%N.
Proof. vm_compute. reflexivity. Qed.
Lemma u64_lt (n : u64) : (uv n < 2 ^ 64)%N.
Proof. rewrite <- pow256_8. apply uv_lt. Qed.

Lemma dec_num n : num_ok (dec n) = true.
Proof.
  unfold dec. set (k := uv n). assert (H : (k < 10 ^ 20)%N) by (apply big20; pose proof (u64_lt n); subst k; lia).
  pose proof (dec20_ok k H) as E. destruct (dec_head 19 k H) as (b & r & B & _). pose proof (dec_digits 20 k) as D.
  unfold num_ok, num_of, scan_num. rewrite B in *. cbn [forallb] in D. apply andb_true_iff in D as [D _].
  unfold scan_minus. pose proof (digit_neq b x2d D eq_refl) as X. rewrite X. 
  rewrite E; cbn [scan_frac scan_exp app]; rewrite app_nil_r; unfold num_norm. cbn [bytes_eqb]. rewrite X. cbn [andb].
  apply bytes_eqb_eq; reflexivity.
Qed.
Lemma neg_num n : (uv n < 2 ^ 63)%N -> num_ok (neg_text n) = true.
Proof.
  intros H0. unfold neg_text. set (k := (uv n + 1)%N).
  assert (H : (k < 10 ^ 20)%N) by (apply big20; assert (2 ^ 63 < 2 ^ 64)%N by (vm_compute; reflexivity); subst k; lia).
  pose proof (dec20_ok k H) as E. unfold num_ok, num_of, scan_num.
  change (scan_minus (x2d :: dec_fuel 20 k)) with ([x2d], dec_fuel 20 k). cbv beta iota. rewrite E. cbn [scan_frac scan_exp app]. rewrite app_nil_r.
  unfold num_norm. destruct (bytes_eqb (x2d :: dec_fuel 20 k) [x2d; x30]) eqn:B.
  - apply bytes_eqb_eq in B. apply (f_equal (@tl byte)) in B. cbn [tl] in B. pose proof (undec_dec 20 k H) as U. rewrite B in U. change (undec [x30]) with 0%N in U. subst k. lia.
  - apply bytes_eqb_eq. reflexivity.
Qed.

(** ** values *)
Section Jind.
  Variable P : jval -> Prop.
  Hypothesis Hnull : P JNull.
  Hypothesis Hbool : forall b, P (JBool b).
  Hypothesis Hnum : forall s, P (JNum s).
  Hypothesis Hstr : forall s, P (JStr s).
  Hypothesis Harr : forall l, Forall P l -> P (JArr l).
  Hypothesis Hobj : forall l, Forall (fun p => P (snd p)) l -> P (JObj l).
  Fixpoint jval_ind2 (j : jval) : P j :=
    match j with
    | JNull => Hnull | JBool b => Hbool b | JNum s => Hnum s | JStr s => Hstr s
    | JArr l => Harr l ((fix go l := match l return Forall P l with [] => Forall_nil _ | x :: l' => Forall_cons x (jval_ind2 x) (go l') end) l)
    | JObj l => Hobj l ((fix go l := match l return Forall (fun p => P (snd p)) l with
                                     | [] => Forall_nil _ | p :: l' => Forall_cons p (jval_ind2 (snd p)) (go l') end) l)
    end.
End Jind.

Lemma all_some_map {A B} (f : A -> option B) (s : B -> A) l :
  Forall (fun b => f (s b) = Some b) l -> all_some (map f (map s l)) = Some l.
Proof. induction 1 as [|b l H _ IH]; [reflexivity|]. cbn [map all_some]. rewrite H, IH. reflexivity. Qed.
Lemma all_some_inv {A} (l : list (option A)) r : all_some l = Some r -> Forall2 (fun o a => o = Some a) l r.
Proof.
  revert r. induction l as [|[a|] l IH]; intros r; cbn [all_some]; [intros K; injection K as <-; constructor| |discriminate].
  destruct (all_some l) as [r'|]; [|discriminate]. intros K. injection K as <-. constructor; auto.
Qed.

Lemma no_dup_keys {V} (l : list (rstring * V)) : no_dup (map fst l) = nodup_keys rs_eqb l.
Proof.
  induction l as [|[k v] l IH]; [reflexivity|]. cbn [map fst no_dup nodup_keys]. rewrite IH. f_equal. f_equal.
  clear. induction (map fst l) as [|x m IH]; [reflexivity|]. cbn [existsb mem_key]. rewrite IH. reflexivity.
Qed.

Lemma num_text_ok (s : rstring) : num_text (sv s) = Some (JNum s).
Proof. unfold num_text. rewrite sub_of_sv. reflexivity. Qed.
Lemma de_map_obj l :
  match l with (CText k, _) :: _ => rs_eqb k token = false | [] => True | _ => False end ->
  de_jval (CMap l) = match all_some (map (fun p => match p with
                                             | (a, b) => match de_key_text a, de_jval b with
                                                         | Some k', Some w => Some (k', w) | _, _ => None end
                                             end) l) with
               | Some ps => Some (JObj (ibuild rs_eqb ps))
               | None => None
               end.
Proof.
  destruct l as [|[[] x] l]; try contradiction; [reflexivity|]. intros E. cbn [de_jval]. rewrite E. reflexivity.
Qed.
Lemma de_ser_jval j : jok j = true -> de_jval (ser_jval j) = Some j.
Proof.
  induction j as [| | | |l IH|l IH] using jval_ind2; cbn [jok]; intros H; try reflexivity.
  - cbn [ser_jval de_jval]. replace (rs_eqb token token) with true by (vm_compute; reflexivity).
    unfold num_from. rewrite (num_ok_of _ H). apply num_text_ok.
  - cbn [ser_jval de_jval]. rewrite all_some_map; [reflexivity|]. rewrite Forall_forall in *. rewrite forallb_forall in H. auto.
  - apply andb_true_iff in H as [H H3]. apply andb_true_iff in H as [H1 H2]. apply negb_true_iff in H2.
    cbn [ser_jval]. rewrite de_map_obj.
    + rewrite (all_some_map _ (fun p => match p with (k, v) => (CText k, ser_jval v) end)).
      * rewrite ibuild_nodup; [reflexivity|apply rs_eqb_eq|]. rewrite <- no_dup_keys. exact H1.
      * rewrite Forall_forall in *. rewrite forallb_forall in H3. intros [k v] I. cbn [de_key_text].
        specialize (IH _ I). cbn [snd] in IH. rewrite IH; [reflexivity|]. exact (H3 _ I).
    + destruct l as [|[k v] l]; [exact I|]. exact H2.
Qed.
Lemma de_ser_value v : de_value (ser_value v) = Ok v.
Proof. unfold de_value, ser_value. rewrite de_ser_jval by apply (s_ok v). rewrite sub_of_sv. reflexivity. Qed.

(** the decoder builds only values (so that the check in [de_value] always succeeds) *)
Lemma ibuild_head {K V} (eqb : K -> K -> bool) (l : list (K * V)) : (forall a, eqb a a = true) ->
  match ibuild eqb l, l with (k, _) :: _, (x, _) :: _ => k = x | [], [] => True | _, _ => False end.
Proof.
  intros R. unfold ibuild. destruct l as [|[k v] l]; [exact I|]. cbn [fold_left iput].
  assert (G : forall (l : list (K * V)) v acc, match fold_left (fun m '(k, v) => iput eqb m k v) l ((k, v) :: acc) with (x, _) :: _ => x = k | [] => False end).
  { clear. induction l as [|[x w] l IH]; intros v acc; cbn [fold_left iput]; [reflexivity|]. destruct (eqb x k); apply IH. }
  specialize (G l v []). destruct (fold_left _ _ _) as [|[]]; exact G.
Qed.
Lemma iput_keys {V} (l : list (rstring * V)) k v : nodup_keys rs_eqb l = true -> nodup_keys rs_eqb (iput rs_eqb l k v) = true.
Proof.
  assert (G : forall x, rs_eqb x k = false -> forall l : list (rstring * V), mem_key rs_eqb x (map fst (iput rs_eqb l k v)) = mem_key rs_eqb x (map fst l)).
  { intros x X. induction l0 as [|[y w] l0 IH]; cbn [iput map fst mem_key]; [rewrite X; reflexivity|].
    destruct (rs_eqb k y); cbn [map fst mem_key]; [reflexivity|]. rewrite IH. reflexivity. }
  induction l as [|[x w] l IH]; cbn [iput nodup_keys map mem_key]; [auto|]. intros H. apply andb_true_iff in H as [H1 H2].
  destruct (rs_eqb k x) eqn:E; cbn [nodup_keys]; [rewrite H1, H2; reflexivity|]. rewrite IH by exact H2.
  rewrite G, H1; [reflexivity|]. destruct (rs_eqb x k) eqn:F; [|reflexivity]. apply rs_eqb_eq in F. subst. rewrite rs_eqb_refl in E. discriminate.
Qed.
Lemma ibuild_keys {V} (l : list (rstring * V)) : nodup_keys rs_eqb (ibuild rs_eqb l) = true.
Proof.
  unfold ibuild. assert (G : forall l acc : list (rstring * V), nodup_keys rs_eqb acc = true -> nodup_keys rs_eqb (fold_left (fun m '(k, v) => iput rs_eqb m k v) l acc) = true).
  { clear l. induction l as [|[k v] l IH]; intros acc H; cbn [fold_left]; [exact H|]. apply IH, iput_keys, H. }
  apply G. reflexivity.
Qed.

Section Cind.
  Variable P : cval -> Prop.
  Hypothesis Huint : forall n, P (CUint n).
  Hypothesis Hnint : forall n, P (CNint n).
  Hypothesis Hbytes : forall n, P (CBytes n).
  Hypothesis Htext : forall n, P (CText n).
  Hypothesis Hbool : forall n, P (CBool n).
  Hypothesis Hnull : P CNull.
  Hypothesis Hf32 : forall n, P (CF32 n).
  Hypothesis Hf64 : forall n, P (CF64 n).
  Hypothesis Harr : forall l, Forall P l -> P (CArr l).
  Hypothesis Hmap : forall l, Forall (fun p => P (fst p) /\ P (snd p)) l -> P (CMap l).
  Fixpoint cval_ind2 (v : cval) : P v :=
    match v with
    | CUint n => Huint n | CNint n => Hnint n | CBytes n => Hbytes n | CText n => Htext n
    | CBool n => Hbool n | CNull => Hnull | CF32 n => Hf32 n | CF64 n => Hf64 n
    | CArr l => Harr l ((fix go l := match l return Forall P l with [] => Forall_nil _ | x :: l' => Forall_cons x (cval_ind2 x) (go l') end) l)
    | CMap l => Hmap l ((fix go l := match l return Forall (fun p => P (fst p) /\ P (snd p)) l with
                                     | [] => Forall_nil _
                                     | p :: l' => Forall_cons p (conj (cval_ind2 (fst p)) (cval_ind2 (snd p))) (go l') end) l)
    end.
End Cind.

Lemma num_text_some s j : num_text s = Some j -> exists t, j = JNum t /\ sv t = s.
Proof.
  unfold num_text. destruct (sub_of utf8_valid s) as [t|] eqn:E; [|discriminate]. intros K. injection K as <-.
  apply sub_of_some in E. eauto.
Qed.
Lemma num_from_some s j : num_from s = Some j -> exists t, j = JNum t /\ num_ok (sv t) = true /\ length (sv t) <= length s.
Proof.
  unfold num_from. destruct (num_of s) as [t|] eqn:E; [|discriminate]. intros K. apply num_text_some in K as (u & -> & <-).
  apply num_of_spec in E. exists u. tauto.
Qed.
(** the two kinds of maps *)
Lemma de_map_cases l j : de_jval (CMap l) = Some j ->
  (exists s, l = [(CText token, CText s)] /\ num_from (sv s) = Some j)
  \/ (exists ps, Forall2 (fun p q => fst p = CText (fst q) /\ de_jval (snd p) = Some (snd q)) l ps
        /\ match ps with (k, _) :: _ => rs_eqb k token = false | [] => True end /\ j = JObj (ibuild rs_eqb ps)).
Proof.
  intros H. destruct l as [|[k x] l].
  { right. exists []. injection H as <-. repeat split. constructor. }
  assert (exists s, k = CText s) as [s ->] by (destruct k; try discriminate; eauto).
  destruct (rs_eqb s token) eqn:E.
  - left. cbn [de_jval] in H. rewrite E in H. apply rs_eqb_eq in E. subst s. destruct x; try discriminate. destruct l; [|discriminate]. eauto.
  - right. rewrite de_map_obj in H by exact E. destruct (all_some _) as [ps|] eqn:A; [|discriminate]. injection H as <-.
    apply all_some_inv in A. exists ps. split; [|split; [|reflexivity]].
    + revert A. generalize ((CText s, x) :: l) as m0. clear. intros l A.
      remember (map _ l) as m eqn:M. revert l M. induction A as [|o a m ps A _ IH]; intros [|[k v] l] M; try discriminate; constructor.
      * injection M as M _. rewrite A in M. destruct k; try discriminate. cbn [de_key_text fst snd] in *. destruct (de_jval v); [|discriminate].
        injection M as M. subst a. auto.
      * apply IH. injection M as _ M. exact M.
    + cbn [map de_key_text] in A. inversion A as [|o a m ps' B _]; subst. destruct (de_jval x); [|discriminate]. injection B as <-. exact E.
Qed.
Lemma de_jval_ok v : forall j, de_jval v = Some j -> jok j = true.
Proof.
  induction v as [n|n|b|s|b| |n|n|l IH|l IH] using cval_ind2; intros j H; try (injection H as <-; reflexivity); try discriminate.
  - apply num_text_some in H as (t & -> & E). cbn [jok]. rewrite E. apply dec_num.
  - cbn [de_jval] in H. destruct (N.ltb_spec (uv n) (2 ^ 63)); [|discriminate]. apply num_text_some in H as (t & -> & E).
    cbn [jok]. rewrite E. apply neg_num. assumption.
  - cbn [de_jval] in H. destruct (all_some (map de_jval l)) as [r|] eqn:E; [|discriminate]. injection H as <-. cbn [jok].
    apply all_some_inv in E. apply forallb_forall. intros x I.
    destruct (Forall2_in_r _ _ _ _ E I) as (o & O & ->). apply in_map_iff in O as (c & C & O). rewrite Forall_forall in IH. apply (IH c O x C).
  - apply de_map_cases in H as [(s & -> & H)|(ps & F & E & ->)].
    + apply num_from_some in H as (t & -> & H & _). exact H.
    + cbn [jok]. rewrite no_dup_keys, ibuild_keys. cbn [andb]. pose proof (ibuild_head rs_eqb ps rs_eqb_refl) as Hd.
      apply andb_true_iff. split.
      * apply negb_true_iff. destruct (ibuild rs_eqb ps) as [|[k w] q]; [reflexivity|]. destruct ps as [|[k' w'] ps]; [contradiction|].
        subst k'. exact E.
      * destruct (ibuild_all rs_eqb ps (fun _ => True) (fun v => jok v = true)) as [_ A].
        { intros p I. split; [exact I0 || trivial|]. destruct (Forall2_in_r _ _ _ _ F I) as (c & Ci & _ & Cd).
          rewrite Forall_forall in IH. apply (IH _ Ci), Cd. }
        apply forallb_forall. intros [k w] I. apply (A _ I).
Qed.
Lemma de_value_total v j : de_jval v = Some j -> exists x, de_value v = Ok x /\ sv x = j.
Proof.
  intros H. unfold de_value. rewrite H.
  replace (sub_of jok j) with (Some (@mk_sub _ jok j (norm_true (de_jval_ok v j H)))).
  - eexists. split; reflexivity.
  - symmetry. apply sub_of_some. reflexivity.
Qed.
