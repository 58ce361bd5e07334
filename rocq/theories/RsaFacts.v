(** * RsaFacts: Fermat's theorem and the correctness of RSA, from the definition of primes. *)
From Coq Require Import ZArith Znumtheory Zpow_facts List Permutation Lia.
Import ListNotations.
Open Scope Z_scope.

Definition prodZ (l : list Z) : Z := fold_right Z.mul 1 l.
Definition upto (p : Z) : list Z := map Z.of_nat (seq 1 (Z.to_nat (p - 1))).

Lemma upto_in p x : In x (upto p) <-> 1 <= x < p.
Proof.
  unfold upto. rewrite in_map_iff. split.
  - intros (n & <- & H). apply in_seq in H. lia.
  - intros H. exists (Z.to_nat x). rewrite in_seq. lia.
Qed.
Lemma upto_nodup p : NoDup (upto p).
Proof.
  unfold upto. apply FinFun.Injective_map_NoDup; [|apply seq_NoDup]. intros a b. apply Nat2Z.inj.
Qed.
Lemma prodZ_perm l l' : Permutation l l' -> prodZ l = prodZ l'.
Proof.
  unfold prodZ. induction 1 as [|x l l' _ IH|x y l|l l' l'' _ IH1 _ IH2]; cbn [fold_right].
  - reflexivity.
  - rewrite IH. reflexivity.
  - ring.
  - congruence.
Qed.
Lemma prodZ_scale_mod a p l : 0 < p -> (prodZ (map (fun i => (a * i) mod p) l)) mod p = (a ^ Z.of_nat (length l) * prodZ l) mod p.
Proof.
  intros P. induction l as [|x l IH]; [reflexivity|].
  cbn [map prodZ fold_right length]. fold (prodZ l). fold (prodZ (map (fun i => (a * i) mod p) l)).
  rewrite Nat2Z.inj_succ, Z.pow_succ_r by lia.
  rewrite Zmult_mod, IH, Zmod_mod. rewrite <- Zmult_mod. f_equal. ring.
Qed.
Lemma prodZ_rel_prime p l : prime p -> (forall x, In x l -> 1 <= x < p) -> rel_prime (prodZ l) p.
Proof.
  intros P H. induction l as [|x l IH]; cbn [prodZ fold_right].
  - apply rel_prime_1.
  - apply rel_prime_sym, rel_prime_mult; apply rel_prime_sym.
    + apply rel_prime_le_prime; [exact P|apply H; left; reflexivity].
    + apply IH. intros y Y. apply H. right. exact Y.
Qed.
Lemma mod_cancel a b c n : 0 < n -> rel_prime a n -> (a * b) mod n = (a * c) mod n -> b mod n = c mod n.
Proof.
  intros N R E. assert (D : (n | a * (b - c))).
  { apply Z.mod_divide; [lia|]. rewrite Z.mul_sub_distr_l, Zminus_mod, E, Z.sub_diag. apply Zmod_0_l. }
  apply Gauss in D; [|apply rel_prime_sym; exact R]. apply Z.mod_divide in D; [|lia].
  destruct (Z.mod_divide (b - c) n) as [X _]; [lia|]. destruct (X D) as [k K].
  replace b with (c + k * n) by lia. apply Z_mod_plus_full.
Qed.

(** Fermat *)
Lemma fermat p a : prime p -> rel_prime a p -> a ^ (p - 1) mod p = 1.
Proof.
  intros P R. pose proof (prime_ge_2 _ P) as G.
  assert (Q : Permutation (map (fun i => (a * i) mod p) (upto p)) (upto p)).
  { apply NoDup_Permutation_bis.
    - pose proof (upto_nodup p) as N. assert (I : forall x, In x (upto p) -> 1 <= x < p) by (intros x; apply upto_in).
      induction N as [|x l X N IH]; cbn [map]; [constructor|]. constructor.
      + rewrite in_map_iff. intros (y & E & Y). apply X. apply mod_cancel in E; [|lia|exact R].
        pose proof (I x (or_introl eq_refl)). pose proof (I y (or_intror Y)). rewrite !Z.mod_small in E by lia. congruence.
      + apply IH. intros y Y. apply I. right. exact Y.
    - rewrite map_length. lia.
    - intros y Y. apply in_map_iff in Y as (x & <- & X). apply upto_in in X. apply upto_in.
      pose proof (Z.mod_pos_bound (a * x) p) as B. assert ((a * x) mod p <> 0); [|lia]. intros Z0.
      apply Z.mod_divide in Z0; [|lia]. apply Gauss in Z0; [|apply rel_prime_sym; exact R].
      apply Z.divide_pos_le in Z0; lia. }
  pose proof (prodZ_scale_mod a p (upto p)) as S. rewrite (prodZ_perm _ _ Q) in S. specialize (S ltac:(lia)).
  replace (Z.of_nat (length (upto p))) with (p - 1) in S by (unfold upto; rewrite map_length, seq_length; lia).
  assert (U : 1 mod p = a ^ (p - 1) mod p).
  { apply mod_cancel with (a := prodZ (upto p)); [lia| |rewrite Z.mul_1_r, S; f_equal; ring].
    apply prodZ_rel_prime; [exact P|]. intros x. apply upto_in. }
  rewrite <- U. apply Z.mod_small. lia.
Qed.

Lemma prime_exponent p a k : prime p -> 0 <= k -> k mod (p - 1) = 1 mod (p - 1) -> 1 <= k -> a ^ k mod p = a mod p.
Proof.
  intros P K E K1. pose proof (prime_ge_2 _ P) as G.
  destruct (Z.eq_dec (a mod p) 0) as [Z0|NZ].
  - rewrite Zpower_mod by lia. rewrite Z0, Z.pow_0_l by lia. rewrite Zmod_0_l. reflexivity.
  - assert (R : rel_prime a p).
    { apply rel_prime_sym, prime_rel_prime; [exact P|]. intros D. apply NZ, Z.mod_divide; [lia|exact D]. }
    assert (X : exists m, 0 <= m /\ k = 1 + m * (p - 1)).
    { destruct (Z.eq_dec p 2) as [->|N2]; [exists (k - 1); lia|].
      assert (D : (k - 1) mod (p - 1) = 0) by (rewrite Zminus_mod, E, Z.sub_diag; apply Zmod_0_l).
      apply Z.mod_divide in D; [|lia]. destruct D as [m M]. exists m. nia. }
    destruct X as (m & M & ->). rewrite Z.pow_add_r, Z.pow_1_r, (Z.mul_comm m), Z.pow_mul_r by nia.
    rewrite Zmult_mod, (Zpower_mod (a ^ (p - 1))) by lia. rewrite fermat by assumption. rewrite Z.pow_1_l by lia.
    rewrite (Z.mod_small 1) by lia. rewrite Z.mul_1_r. apply Zmod_mod.
Qed.

(** raising to the power e d is the identity modulo p q *)
Lemma rsa_identity p q e d a : prime p -> prime q -> p <> q -> 0 <= e -> 0 <= d ->
  (e * d) mod (p - 1) = 1 mod (p - 1) -> (e * d) mod (q - 1) = 1 mod (q - 1) -> 1 <= e * d ->
  (a ^ e) ^ d mod (p * q) = a mod (p * q).
Proof.
  intros P Q N E D A B O. pose proof (prime_ge_2 _ P) as Gp. pose proof (prime_ge_2 _ Q) as Gq.
  rewrite <- Z.pow_mul_r by lia.
  assert (Dp : (p | a ^ (e * d) - a)).
  { apply Z.mod_divide; [lia|]. rewrite Zminus_mod, (prime_exponent p) by (assumption || lia). rewrite Z.sub_diag. apply Zmod_0_l. }
  assert (Dq : (q | a ^ (e * d) - a)).
  { apply Z.mod_divide; [lia|]. rewrite Zminus_mod, (prime_exponent q) by (assumption || lia). rewrite Z.sub_diag. apply Zmod_0_l. }
  assert (C : rel_prime p q) by (apply rel_prime_sym, prime_rel_prime; [exact Q|]; intros X; apply prime_div_prime in X; auto).
  destruct Dp as [x X]. assert (Y : (q | x)).
  { apply (Gauss q p x); [rewrite Z.mul_comm, <- X; exact Dq|apply rel_prime_sym; exact C]. }
  destruct Y as [y ->]. replace (a ^ (e * d)) with (a + y * (p * q)) by lia. apply Z_mod_plus_full.
Qed.
