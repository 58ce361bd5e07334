(** * ToyE: a working instance of the threshold scheme, over the integers modulo 257.
    Not secure; it satisfies every law of SpecThreshold, so that these can be used without doubt about
    their consistency, and it runs in examples. *)
From Verif Require Import Base BaseFacts Hex HexFacts Utf8 Cbor CborFacts Ident Crypto Types Serde Prost ValidateFacts Encrypt Trustee Toy ToyT Lagrange SpecThreshold.
From Coq Require Import Ring_theory Field_theory ZifyBool ZifyNat ZifyN Sorting.Permutation.
Open Scope list_scope.

(** ** the field *)
Definition Q : N := 257%N.
Definition q_ok (n : N) : bool := (n <? Q)%N.
Definition fq := sub q_ok.
Lemma q_mod_ok n : q_ok (n mod Q) = true.
Proof. apply N.ltb_lt, N.mod_lt. discriminate. Qed.
Definition fq_of (n : N) : fq := @mk_sub N q_ok (n mod Q)%N (norm_true (q_mod_ok n)).
Definition qadd (a b : fq) : fq := fq_of (sv a + sv b).
Definition qmul (a b : fq) : fq := fq_of (sv a * sv b).
Definition qopp (a : fq) : fq := fq_of (Q - sv a).
Definition qsub (a b : fq) : fq := qadd a (qopp b).
Definition qinv (a : fq) : fq := fold_left (fun x _ => qmul x a) (repeat tt 255) (fq_of 1).
Definition qdiv (a b : fq) : fq := qmul a (qinv b).
Lemma fq_lt (a : fq) : (sv a < Q)%N.
Proof. apply N.ltb_lt, (s_ok a). Qed.
Lemma fq_sv a : fq_of (sv a) = a.
Proof. apply sub_ext. cbn [fq_of sv]. apply N.mod_small, fq_lt. Qed.
Lemma fq_eq a b : (a mod Q = b mod Q)%N -> fq_of a = fq_of b.
Proof. intros H. apply sub_ext. exact H. Qed.
Lemma fq_small n : (n < Q)%N -> sv (fq_of n) = n.
Proof. intros H. cbn [fq_of sv]. apply N.mod_small, H. Qed.

Lemma below P : forallb P (map N.of_nat (seq 0 257)) = true -> forall n, (n < Q)%N -> P n = true.
Proof.
  intros H n L. rewrite forallb_forall in H. apply H. apply in_map_iff. exists (N.to_nat n). split; [lia|]. apply in_seq.
  assert (N.to_nat n < N.to_nat Q) by lia. change (N.to_nat Q) with 257 in *. lia.
Qed.
Lemma inv_sweep : forallb (fun n => (n =? 0)%N || (sv (qmul (qinv (fq_of n)) (fq_of n)) =? 1)%N) (map N.of_nat (seq 0 257)) = true.
Proof. vm_compute. reflexivity. Qed.

Lemma q_field : field_theory (fq_of 0) (fq_of 1) qadd qmul qsub qopp qdiv qinv eq.
Proof.
  split; [split| | |].
  - intros x. unfold qadd. rewrite (fq_small 0) by reflexivity. rewrite N.add_0_l. apply fq_sv.
  - intros x y. unfold qadd. rewrite N.add_comm. reflexivity.
  - intros x y z. unfold qadd. apply fq_eq. cbn [fq_of sv]. rewrite N.add_mod_idemp_r, N.add_mod_idemp_l, N.add_assoc by discriminate. reflexivity.
  - intros x. unfold qmul. rewrite (fq_small 1) by reflexivity. rewrite N.mul_1_l. apply fq_sv.
  - intros x y. unfold qmul. rewrite N.mul_comm. reflexivity.
  - intros x y z. unfold qmul. apply fq_eq. cbn [fq_of sv]. rewrite N.mul_mod_idemp_r, N.mul_mod_idemp_l, N.mul_assoc by discriminate. reflexivity.
  - intros x y z. unfold qmul, qadd. apply fq_eq. cbn [fq_of sv].
    rewrite N.mul_mod_idemp_l, N.add_mod_idemp_l, N.add_mod_idemp_r, N.mul_add_distr_r by discriminate. reflexivity.
  - intros x y. reflexivity.
  - intros x. unfold qadd, qopp. apply fq_eq. cbn [fq_of sv]. rewrite N.add_mod_idemp_r by discriminate.
    pose proof (fq_lt x). replace (sv x + (Q - sv x))%N with Q by lia. reflexivity.
  - intros X. apply (f_equal (@sv _ _)) in X. vm_compute in X. discriminate.
  - intros x y. reflexivity.
  - intros x N0. pose proof (below _ inv_sweep (sv x) (fq_lt x)) as H. cbn beta in H. rewrite fq_sv in H.
    apply orb_prop in H as [H|H]; apply N.eqb_eq in H.
    + exfalso. apply N0. apply sub_ext. rewrite H. reflexivity.
    + apply sub_ext. rewrite H. reflexivity.
Qed.
Definition Fq : Fld := {| F := fq; f0 := fq_of 0; f1 := fq_of 1; fadd := qadd; fmul := qmul; fsub := qsub; fopp := qopp;
                          fdiv := qdiv; finv := qinv; f_field := q_field |}.
#[local] Existing Instance Fq.
Add Field QF : q_field.
Lemma q_s_zero a : qmul (fq_of 0) a = fq_of 0. Proof. ring. Qed.
Lemma q_g_add0 a : qadd (fq_of 0) a = a. Proof. ring. Qed.
Lemma q_comm a b : qadd a b = qadd b a. Proof. ring. Qed.
Lemma q_assoc a b c : qadd a (qadd b c) = qadd (qadd a b) c. Proof. ring. Qed.
Lemma q_s_add u v a : qmul (qadd u v) a = qadd (qmul u a) (qmul v a). Proof. ring. Qed.
Lemma q_s_addg u a b : qmul u (qadd a b) = qadd (qmul u a) (qmul u b). Proof. ring. Qed.
Lemma q_s_mul u v a : qmul (qmul u v) a = qmul u (qmul v a). Proof. ring. Qed.
Definition Gq : @Mdl Fq := @Build_Mdl Fq fq (fq_of 0) qadd qmul q_g_add0 q_comm q_assoc q_s_zero q_s_add q_s_addg q_s_mul.
#[local] Existing Instance Gq.

(** ** its encoding in CBOR *)
Definition cv (a : fq) : cval := CUint (u_of 8 (sv a)).
Definition vc (v : cval) : fq := match v with CUint u => fq_of (uv u) | _ => fq_of 0 end.
Lemma vc_cv a : vc (cv a) = a.
Proof.
  unfold vc, cv. change (uv (u_of 8 (sv a))) with (sv a mod pow256 8)%N. pose proof (fq_lt a) as L. rewrite N.mod_small; [apply fq_sv|].
  eapply N.lt_le_trans; [exact L|]. vm_compute. discriminate.
Qed.
Definition cvs (l : list fq) : cval := CArr (map cv l).
Definition vcs (v : cval) : list fq := match v with CArr l => map vc l | _ => [] end.
Lemma vcs_cvs l : vcs (cvs l) = l.
Proof. unfold vcs, cvs. rewrite map_map. induction l as [|a l IH]; [reflexivity|]. cbn [map]. rewrite vc_cv, IH. reflexivity. Qed.

(** a ciphertext: r * base, and every byte shifted by r * key *)
Definition ct1 (v : cval) : fq := match v with CArr (a :: _) => vc a | _ => fq_of 0 end.
Definition ct2 (v : cval) : list fq := match v with CArr [_; b] => vcs b | _ => [] end.
Definition mk_ct (a : fq) (b : list fq) : cval := CArr [cv a; cvs b].
Definition q_open (v : cval) (g : fq) : option bytes :=
  let l := map (fun x => sv (qsub x g)) (ct2 v) in
  if forallb (fun n => (n <? 256)%N) l then Some (map u8_of l) else None.
Definition q_encrypt (A r : fq) (m : bytes) : cval := mk_ct r (map (fun b => qadd (fq_of (u8v b)) (qmul r A)) m).
Definition q_reenc (A r : fq) (v : cval) : cval := mk_ct (qadd (ct1 v) r) (map (fun x => qadd x (qmul r A)) (ct2 v)).

Fixpoint cvals_eqb (a b : list cval) : bool :=
  match a, b with [], [] => true | x :: a', y :: b' => cval_eqb x y && cvals_eqb a' b' | _, _ => false end.
Fixpoint rowsv_eqb (a b : list (list cval)) : bool :=
  match a, b with [], [] => true | x :: a', y :: b' => cvals_eqb x y && rowsv_eqb a' b' | _, _ => false end.
Lemma cvals_eqb_eq a : forall b, cvals_eqb a b = true <-> a = b.
Proof.
  induction a as [|x a IH]; intros [|y b]; cbn [cvals_eqb]; try (split; [discriminate|discriminate]); [tauto|].
  rewrite andb_true_iff, IH, cval_eqb_eq. split; [intros [-> ->]; reflexivity|intros X; injection X as -> ->; auto].
Qed.
Lemma rowsv_eqb_eq a : forall b, rowsv_eqb a b = true <-> a = b.
Proof.
  induction a as [|x a IH]; intros [|y b]; cbn [rowsv_eqb]; try (split; [discriminate|discriminate]); [tauto|].
  rewrite andb_true_iff, IH, cvals_eqb_eq. split; [intros [-> ->]; reflexivity|intros X; injection X as -> ->; auto].
Qed.
Fixpoint nodupb (l : list byte) : bool :=
  match l with [] => true | x :: l' => negb (existsb (Byte.eqb x) l') && nodupb l' end.
Lemma nodupb_iff l : nodupb l = true <-> NoDup l.
Proof.
  induction l as [|x l IH]; cbn [nodupb]; [split; [constructor|reflexivity]|]. rewrite andb_true_iff, IH, negb_true_iff. split.
  - intros [A B]. constructor; [|exact B]. intros I. assert (existsb (Byte.eqb x) l = true); [|congruence].
    apply existsb_exists. exists x. split; [exact I|]. apply Byte.byte_dec_lb. reflexivity.
  - intros N. inversion N as [|? ? A B]. split; [|exact B]. destruct (existsb (Byte.eqb x) l) eqn:E; [|reflexivity].
    exfalso. apply existsb_exists in E as (y & Y1 & Y2). apply Byte.byte_dec_bl in Y2. subst. contradiction.
Qed.

(** share verification: share = proof * c1 (the proof is the secret times the base 1) *)
Definition q_verify (sh pf ct : cval) : bool := (sv (vc sh) =? sv (qmul (vc pf) (ct1 ct)))%N.
Definition q_pt (n : N) : fq := fq_of n.

Definition q_proof (v : cval) : option (bytes * cval) := 
  match v with CArr [CText s; r] => match hex_decode (sv s) with Some b => Some (b, r) | None => None end | _ => None end.

Definition ToyE : Crypto := {|
  ed_pk_ok := anyb;
  ed_sig_ok := anyb;
  ed_secret := arr 32;
  ed_public := fun sk => any sk;
  ed_sign := fun sk m => any (toy_sign sk m);
  ed_verify := fun pk m s => arr_eqb (sv s) (toy_sign (sv pk) m);
  rsa_pk_ok := anyb;
  rsa_hash := fun pk m => match sv pk with [] => None | k => Some (k ++ toy_hash m) end;
  rsa_verify := fun pk d s => bytes_eqb d s;
  ct_ok := anyb;
  eg_pk_ok := anyb;
  commit_ok := anyb;
  pkproof_ok := anyb;
  dshare_ok := anyb;
  shproof_ok := anyb;
  share_verify := fun sh pf ct => q_verify (sv sh) (sv pf) (sv ct);
  threshold_decrypt := fun k ct l =>
    if (u8v k <=? N.of_nat (length l))%N && nodupb (map (fun x => fst (fst x)) l)
       && forallb (fun x => q_verify (sv (snd x)) (sv (snd (fst x))) (sv ct)) l
    then q_open (sv ct) (gsum (fun x => qmul (basis q_pt (fq_of 0) (map (fun y => u8v (fst (fst y))) l) (u8v (fst (fst x)))) (vc (sv (snd x)))) l)
    else None;
  shuffle_verify := fun seed n ins outs key proof =>
    match q_proof (sv proof) with
    | Some (s, r) => bytes_eqb s seed && (n =? N.of_nat (length ins))%N
        && rowsv_eqb (map (map (fun c => sv c)) outs) (rev (map (map (fun c => q_reenc (vc (sv key)) (vc r) (sv c))) ins))
    | None => false
    end
|}.

Record gen := mk_gen { ge_index : N; ge_k : N; ge_n : N; ge_poly : list fq; ge_coms : list (N * cval); ge_shares : list (N * fq) }.
Definition has {A} (i : N) (l : list (N * A)) : bool := existsb (fun x => N.eqb i (fst x)) l.
Definition get {A} (i : N) (l : list (N * A)) : option A := option_map snd (find (fun x => N.eqb i (fst x)) l).
Definition q_poly (seed : arr 32) (k : N) : list fq :=
  map (fun j => fq_of (be_val (toy_hash (arr_l seed ++ [u8_of (N.of_nat j)])))) (seq 0 (N.to_nat k)).
Definition q_in (g : gen) (i : N) : bool := (1 <=? i)%N && (i <=? ge_n g)%N.
Definition q_full (g : gen) : bool := (N.of_nat (length (ge_coms g)) =? ge_n g)%N.
Record pty := mk_pty { pt_secret : fq; pt_key : fq }.
Definition q_scalar_of (l : bytes) : option fq :=
  if Nat.eqb (length l) 2 && q_ok (be_val l) then Some (fq_of (be_val l)) else None.

Definition ToyET : @TCrypto ToyE := {|
  sk_bytes := fun k : @ed_secret ToyE => @arr_l 32 k;
  hkdf := fun salt ikm info => toy_hash32 (ikm ++ salt ++ info);
  x_public := fun a => a;
  x_dh := fun a b => be_list 33 (be_val (arr_l a) + be_val (arr_l b));
  gcm_enc := toy_enc;
  gcm_dec := toy_dec;
  scalar := fq;
  scalar_bytes := fun a => be_list 2 (sv a);
  scalar_of := q_scalar_of;
  tgen := gen;
  tparty := pty;
  tg_new := fun seed i k n => mk_gen i k n (q_poly seed k) [] [];
  tg_commitment := fun g => any (cvs (ge_poly g));
  tg_receive_commitment := fun g i c =>
    if q_in g i && (N.of_nat (length (vcs (sv c))) =? ge_k g)%N && negb (has i (ge_coms g))
    then Some (mk_gen (ge_index g) (ge_k g) (ge_n g) (ge_poly g) (ge_coms g ++ [(i, sv c)]) (ge_shares g)) else None;
  tg_polynomial_share := fun g i => if q_in g i && q_full g then Some (eval (ge_poly g) (q_pt i)) else None;
  tg_receive_share := fun g i s =>
    match get i (ge_coms g) with
    | Some c => if q_full g && negb (has i (ge_shares g)) && (sv s =? sv (geval (vcs c) (q_pt (ge_index g))))%N
                then Some (mk_gen (ge_index g) (ge_k g) (ge_n g) (ge_poly g) (ge_coms g) (ge_shares g ++ [(i, s)])) else None
    | None => None
    end;
  tg_finish := fun g => if q_full g && (N.of_nat (length (ge_shares g)) =? ge_n g)%N
                        then Some (mk_pty (fsum snd (ge_shares g)) (gsum (fun x => hd (fq_of 0) (vcs (snd x))) (ge_coms g))) else None;
  tp_pubkey := fun p => any (cv (pt_key p));
  tp_proof := fun p => any (cv (pt_secret p));
  tp_decrypt_share := fun p ct _ => any (cv (qmul (pt_secret p) (ct1 (sv ct))));
  shuffle := fun seed n ins key rnd =>
    let r := cv (fq_of (be_val rnd)) in
    if (n =? N.of_nat (length ins))%N
    then Some (rev (map (map (fun c => any (q_reenc (vc (sv key)) (vc r) (sv c)))) ins), any (CArr [hex_text seed; r])) else None
|}.
#[local] Existing Instance ToyE.
#[local] Existing Instance ToyET.

(** ** the laws *)
Lemma e_dh_agrees : dh_agrees.
Proof. intros a b. cbn [x_dh x_public ToyET]. rewrite N.add_comm. reflexivity. Qed.
Lemma e_gcm_opens : gcm_opens.
Proof. exact toy_gcm_opens. Qed.
Lemma e_gcm_exact : gcm_exact.
Proof. exact toy_gcm_exact. Qed.
Lemma e_scalar_faithful : scalar_faithful.
Proof.
  intros s. change (q_scalar_of (be_list 2 (sv s)) = Some s). unfold q_scalar_of. rewrite be_list_length, be_val_list.
  rewrite N.mod_small by (eapply N.lt_le_trans; [apply fq_lt|vm_compute; discriminate]).
  change (Nat.eqb 2 2) with true. cbn [andb]. rewrite (s_ok s), fq_sv. reflexivity.
Qed.
Lemma has_not {A} i (l : list (N * A)) : ~ In i (map fst l) -> has i l = false.
Proof.
  intros H. unfold has. destruct (existsb _ l) eqn:E; [|reflexivity]. exfalso. apply H. apply existsb_exists in E as (x & X1 & X2).
  apply N.eqb_eq in X2. subst i. apply in_map, X1.
Qed.
Definition ge_view (g : gen) : view :=
  mk_view (ge_index g) (ge_k g) (ge_n g) (ge_poly g) (map (fun x => (fst x, any (snd x))) (ge_coms g)) (ge_shares g).
Lemma ge_view_number g : N.of_nat (List.length (v_coms (ge_view g))) = v_number (ge_view g) -> q_full g = true.
Proof. cbn [ge_view v_coms v_number]. rewrite map_length. intros H. apply N.eqb_eq, H. Qed.
Lemma get_in {A} i (c : A) l : NoDup (map fst l) -> In (i, c) l -> get i l = Some c.
Proof.
  intros N I. unfold get. induction l as [|[j d] l IH]; [destruct I|]. cbn [find fst]. cbn [map fst] in N. inversion N as [|? ? Nj N'].
  destruct (N.eqb_spec i j) as [->|Ne].
  - destruct I as [I|I]; [injection I as ->; reflexivity|]. exfalso. apply Nj. apply (in_map fst) in I. exact I.
  - destruct I as [I|I]; [congruence|]. apply IH; assumption.
Qed.
Lemma fst_any (l : list (N * cval)) : map fst (map (fun x => (fst x, @any cval (snd x))) l) = map fst l.
Proof. rewrite map_map. reflexivity. Qed.

Lemma q_sep i j : (i < 256)%N -> (j < 256)%N -> i <> j -> qsub (q_pt i) (q_pt j) <> fq_of 0.
Proof.
  intros Hi Hj Ne X. apply Ne. assert (Y : q_pt i = q_pt j).
  { transitivity (qadd (qsub (q_pt i) (q_pt j)) (q_pt j)); [ring|]. rewrite X. ring. }
  apply (f_equal (@sv _ _)) in Y. unfold q_pt in Y. rewrite !fq_small in Y by (unfold Q; lia). exact Y.
Qed.

Lemma e_new : forall seed i k n, ge_view (mk_gen i k n (q_poly seed k) [] []) = mk_view i k n (q_poly seed k) [] [].
Proof. reflexivity. Qed.
Definition e_com (c : KeygenCommitment) : list fq := vcs (sv c).
Lemma e_receive_commitment : forall g i c, let v := ge_view g in
  (1 <= i <= v_number v)%N -> N.of_nat (List.length (e_com c)) = v_threshold v -> ~ In i (map fst (v_coms v)) ->
  exists g', @tg_receive_commitment ToyE ToyET g i c = Some g'
    /\ ge_view g' = mk_view (v_index v) (v_threshold v) (v_number v) (v_poly v) (v_coms v ++ [(i, c)]) (v_shares v).
Proof.
  intros g i c v H1 H2 H3. unfold v in *. cbn [ge_view v_number v_threshold v_coms v_index v_poly v_shares] in *. rewrite fst_any in H3.
  eexists. split.
  - cbn [tg_receive_commitment ToyET]. unfold q_in. unfold e_com in H2. rewrite (has_not _ _ H3).
    replace (1 <=? i)%N with true by (symmetry; apply N.leb_le, H1). replace (i <=? ge_n g)%N with true by (symmetry; apply N.leb_le, H1).
    rewrite (proj2 (N.eqb_eq _ _) H2). reflexivity.
  - unfold ge_view. cbn [ge_index ge_k ge_n ge_poly ge_coms ge_shares]. rewrite map_app. cbn [map fst snd]. do 3 f_equal.
    f_equal. destruct c as [c ok]. apply sub_ext. reflexivity.
Qed.
Lemma e_polynomial_share : forall g i, let v := ge_view g in
  (1 <= i <= v_number v)%N -> N.of_nat (List.length (v_coms v)) = v_number v ->
  exists s, @tg_polynomial_share ToyE ToyET g i = Some s /\ s = eval (v_poly v) (q_pt i).
Proof.
  intros g i v H1 H2. apply ge_view_number in H2. unfold v in *. cbn [ge_view v_number v_poly] in *. eexists. split; [|reflexivity].
  cbn [tg_polynomial_share ToyET]. rewrite H2. unfold q_in.
  replace (1 <=? i)%N with true by (symmetry; apply N.leb_le, H1). replace (i <=? ge_n g)%N with true by (symmetry; apply N.leb_le, H1). reflexivity.
Qed.
Lemma qmul_1 a : qmul a (fq_of 1) = a. Proof. ring. Qed.
Lemma e_receive_share : forall g i s c, let v := ge_view g in
  NoDup (map fst (v_coms v)) -> N.of_nat (List.length (v_coms v)) = v_number v -> In (i, c) (v_coms v) -> ~ In i (map fst (v_shares v)) ->
  qmul s (fq_of 1) = geval (e_com c) (q_pt (v_index v)) ->
  exists g', @tg_receive_share ToyE ToyET g i s = Some g'
    /\ ge_view g' = mk_view (v_index v) (v_threshold v) (v_number v) (v_poly v) (v_coms v) (v_shares v ++ [(i, s)]).
Proof.
  intros g i s c v H0 H1 H2 H3 H4. apply ge_view_number in H1. unfold v in *. cbn [ge_view v_number v_threshold v_coms v_index v_poly v_shares] in *.
  rewrite fst_any in H0. apply in_map_iff in H2 as ([j d] & E & I). cbn [fst snd] in E. injection E as -> <-.
  eexists. split.
  - cbn [tg_receive_share ToyET]. rewrite (get_in _ _ _ H0 I), H1.
    pose proof (@has_not fq i (ge_shares g) H3) as H5. rewrite H5. cbn [negb andb].
    rewrite qmul_1 in H4. change (e_com (any d)) with (vcs d) in H4.
    assert (E : (sv s =? sv (geval (vcs d) (q_pt (ge_index g))))%N = true) by (rewrite H4; apply N.eqb_refl).
    rewrite E. reflexivity.
  - reflexivity.
Qed.
Lemma e_finish : forall g, let v := ge_view g in
  N.of_nat (List.length (v_coms v)) = v_number v -> N.of_nat (List.length (v_shares v)) = v_number v ->
  exists p, @tg_finish ToyE ToyET g = Some p
    /\ pt_secret p = fsum (fun x => snd x) (v_shares v)
    /\ @tp_pubkey ToyE ToyET p = any (cv (gsum (fun x => hd g0 (e_com (snd x))) (v_coms v))).
Proof.
  intros g v H1 H2. apply ge_view_number in H1. unfold v in *. cbn [ge_view v_number v_coms v_shares] in *.
  assert (E : (N.of_nat (List.length (ge_shares g)) =? ge_n g)%N = true) by (apply N.eqb_eq; exact H2).
  eexists. split; [cbn [tg_finish ToyET]; rewrite H1, E; reflexivity|]. cbn [pt_secret].
  split; [reflexivity|]. cbn [tp_pubkey ToyET pt_key]. do 2 f_equal.
  induction (ge_coms g) as [|x l IH]; [reflexivity|]. cbn [map gsum snd]. rewrite IH. reflexivity.
Qed.
Lemma e_combine : forall (k : byte) (ct : Ciphertext) (l : list (byte * PubkeyProof * DecryptShare)), (1 <= u8v k)%N -> (u8v k <= N.of_nat (List.length l))%N ->
  NoDup (map (fun x => fst (fst x)) l) -> ~ In x00 (map (fun x => fst (fst x)) l) ->
  (forall i pf sh, In (i, pf, sh) l -> share_verify sh pf ct = true) ->
  exists l', incl l' l /\ NoDup (map (fun x => fst (fst x)) l') /\ (u8v k <= N.of_nat (List.length l'))%N
    /\ threshold_decrypt k ct l
       = q_open (sv ct) (gsum (fun x => smul (basis q_pt f0 (map (fun y => u8v (fst (fst y))) l') (u8v (fst (fst x))))
                                         (vc (sv (snd x)))) l').
Proof.
  intros k ct l _ H1 H2 _ H3. exists l. split; [apply incl_refl|]. split; [exact H2|]. split; [exact H1|].
  cbn [threshold_decrypt ToyE]. match goal with |- (if ?c then _ else _) = _ => assert (E : c = true) end.
  { apply andb_true_intro. split; [apply andb_true_intro; split|].
    - apply N.leb_le. exact H1.
    - apply nodupb_iff. exact H2.
    - apply forallb_forall. intros [[i pf] sh] I. apply (H3 i pf sh I). }
  rewrite E. reflexivity.
Qed.
Lemma e_share_verifies : forall p ct rnd, @share_verify ToyE (@tp_decrypt_share ToyE ToyET p ct rnd) (@tp_proof ToyE ToyET p) ct = true.
Proof.
  intros p ct rnd. cbn [share_verify ToyE tp_decrypt_share ToyET tp_proof]. unfold q_verify. cbn [any sv].
  rewrite !vc_cv. apply N.eqb_refl.
Qed.
Lemma e_decrypt_share : forall p ct rnd,
  vc (sv (@tp_decrypt_share ToyE ToyET p ct rnd)) = qmul (pt_secret p) (ct1 (sv ct)).
Proof. intros p ct rnd. apply vc_cv. Qed.
Lemma e_commitment : forall g, e_com (@tg_commitment ToyE ToyET g) = map (fun a => qmul a (fq_of 1)) (v_poly (ge_view g)).
Proof.
  intros g. unfold e_com. cbn [tg_commitment ToyET any sv ge_view v_poly]. rewrite vcs_cvs.
  induction (ge_poly g) as [|a l IH]; [reflexivity|]. cbn [map]. rewrite qmul_1, <- IH. reflexivity.
Qed.
Lemma q_poly_length seed k : List.length (q_poly seed k) = N.to_nat k.
Proof. unfold q_poly. rewrite map_length, seq_length. reflexivity. Qed.

Definition toy_scheme : @threshold_scheme ToyE ToyET Fq Gq := {|
  ts_base := fq_of 1 : @G Fq Gq;
  ts_pt := q_pt;
  ts_pt_zero := eq_refl;
  ts_pt_sep := q_sep;
  ts_val := fun s : @scalar ToyE ToyET => s : @F Fq;
  ts_com := e_com;
  ts_key := fun A => any (cv A);
  ts_c1 := fun ct => ct1 (sv ct);
  ts_open := fun ct g => q_open (sv ct) g;
  ts_point := fun sh => vc (sv sh);
  ts_secret := pt_secret;
  ts_view := ge_view;
  ts_poly := q_poly;
  ts_poly_length := q_poly_length;
  ts_new := fun seed i k n _ _ => e_new seed i k n;
  ts_commitment := e_commitment;
  ts_receive_commitment := e_receive_commitment;
  ts_polynomial_share := e_polynomial_share;
  ts_receive_share := e_receive_share;
  ts_finish := e_finish;
  ts_decrypt_share := e_decrypt_share;
  ts_share_verifies := e_share_verifies;
  ts_combine := e_combine
|}.

(** encryption with a counter as generator *)
Definition e_encrypt (key : EGPublicKey) (r : nat) (m : bytes) : Ciphertext * nat :=
  (any (q_encrypt (vc (sv key)) (fq_of (N.of_nat r * 7 + 3)) m), S r).
Lemma u8_small b : (u8v b < 256)%N.
Proof. unfold u8v. pose proof (Byte.to_N_bounded b). lia. Qed.
Lemma e_encrypting : encrypting toy_scheme e_encrypt.
Proof.
  intros A r m. exists (fq_of (N.of_nat r * 7 + 3)). cbn [e_encrypt fst ts_c1 ts_open ts_key ts_base toy_scheme any sv].
  set (rho := fq_of (N.of_nat r * 7 + 3)). rewrite vc_cv. unfold q_encrypt. split.
  - cbn [mk_ct ct1 smul Gq]. rewrite vc_cv. symmetry. apply qmul_1.
  - unfold q_open. cbn [mk_ct ct2]. rewrite vcs_cvs, map_map. change (@smul Fq Gq rho A) with (qmul rho A).
    assert (X : map (fun b => sv (qsub (qadd (fq_of (u8v b)) (qmul rho A)) (qmul rho A))) m = map u8v m).
    { apply map_ext. intros b. replace (qsub (qadd (fq_of (u8v b)) (qmul rho A)) (qmul rho A)) with (fq_of (u8v b)) by ring.
      apply fq_small. pose proof (u8_small b). unfold Q. lia. }
    rewrite X. replace (forallb _ _) with true.
    + f_equal. rewrite map_map. rewrite <- (map_id m) at 2. apply map_ext. intros b. apply u8_of_u8v.
    + symmetry. apply forallb_forall. intros n I. apply in_map_iff in I as (b & <- & _). apply N.ltb_lt, u8_small.
Qed.
Lemma reenc_rows A r : forall rows outs : list (list Ciphertext),
  map (map (fun c => sv c)) outs = map (map (fun c => q_reenc A r (sv c))) rows ->
  Forall2 (Forall2 (fun a b => forall m, encrypts toy_scheme A m a -> encrypts toy_scheme A m b)) rows outs.
Proof.
  induction rows as [|row rows IH]; intros [|out outs] H; cbn [map] in H; [constructor|discriminate|discriminate|].
  injection H as H1 H2. constructor; [|apply IH, H2].
  clear -H1. revert out H1. induction row as [|a row IH]; intros [|b out] H; cbn [map] in H; [constructor|discriminate|discriminate|].
  injection H as H1 H2. constructor; [|apply IH, H2].
  intros m (rho & E1 & E2). cbn [ts_c1 ts_open ts_base toy_scheme] in *. exists (qadd rho r).
  cbn [ts_c1 ts_open ts_base toy_scheme]. destruct b as [bv bo], a as [av ao]. cbn [sv] in *. subst bv. split.
  - unfold q_reenc. cbn [mk_ct ct1]. rewrite vc_cv, E1. change (@smul Fq Gq) with qmul. match goal with |- @eq _ ?a ?b => change (@eq fq a b) end. ring.
  - unfold q_open, q_reenc in *. cbn [mk_ct ct2]. rewrite vcs_cvs, map_map. change (@smul Fq Gq) with qmul in *.
    rewrite <- E2.
    assert (X : map (fun x => sv (qsub (qadd x (qmul r A)) (qmul (qadd rho r) A))) (ct2 av)
                = map (fun x => sv (qsub x (qmul rho A))) (ct2 av)).
    { apply map_ext. intros x. f_equal. ring. }
    rewrite X. reflexivity.
Qed.
Lemma e_reencrypting : reencrypting toy_scheme.
Proof.
  intros seed n ins outs A pf. cbn [shuffle_verify ToyE ts_key toy_scheme any sv]. rewrite vc_cv.
  match goal with |- context [q_proof ?x] => destruct (q_proof x) as [[s r]|] end; [|intros X; discriminate X].
  intros H. apply andb_true_iff in H as [_ H]. apply rowsv_eqb_eq in H. exists (rev ins). split; [apply Permutation_rev|].
  rewrite <- map_rev in H. apply reenc_rows with (vc r). exact H.
Qed.
