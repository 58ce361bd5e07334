(** * Toy: a concrete instance of [Crypto], used only to run the model in examples and in
    counterexamples.  It is not secure; it satisfies the laws stated in Crypto.v. *)
From Verif Require Import Base BaseFacts Utf8 Cbor Crypto.

(** toy hash: polynomial in the bytes modulo 2^32 *)
Definition toy_hash (m : bytes) : bytes :=
  repeat x00 28 ++ be_list 4 (fold_left (fun h b => N.land (h * 257 + u8v b + 1) 4294967295)%N m 7%N).
Lemma toy_sig_ok (a : arr 32) (m : bytes) : Nat.eqb (length (arr_l a ++ toy_hash m)) 64 = true.
Proof.
  rewrite app_length, arr_len. unfold toy_hash. rewrite app_length, be_list_length. reflexivity.
Qed.
Definition toy_sign (a : arr 32) (m : bytes) : arr 64 :=
  mk_arr (arr_l a ++ toy_hash m) (norm_true (toy_sig_ok a m)).

(** a ciphertext is its plaintext with a nonce *)
Definition toy_ct_ok (v : cval) : bool :=
  match v with CArr [CBytes _; CUint _] => true | _ => false end.
Definition toy_plain (v : cval) : bytes := match v with CArr [CBytes m; _] => m | _ => [] end.
Definition toy_share (proof ct : cval) : cval := CArr [proof; ct].

Fixpoint rows_eqb (a b : list bytes) : bool :=
  match a, b with
  | [], [] => true | x :: a', y :: b' => bytes_eqb x y && rows_eqb a' b' | _, _ => false end.
Fixpoint remove1 (x : list bytes) (l : list (list bytes)) : option (list (list bytes)) :=
  match l with
  | [] => None
  | y :: l' => if rows_eqb x y then Some l'
               else match remove1 x l' with Some r => Some (y :: r) | None => None end
  end.
Fixpoint perm_rows (a b : list (list bytes)) : bool :=
  match a with
  | [] => match b with [] => true | _ => false end
  | x :: a' => match remove1 x b with Some b' => perm_rows a' b' | None => false end
  end.

(** number of different indices in a list of shares *)
Fixpoint distinct (l : list byte) : nat :=
  match l with
  | [] => 0
  | x :: l' => (if existsb (Byte.eqb x) l' then 0 else 1) + distinct l'
  end.

Definition anyb {A} (_ : A) : bool := true.
Definition any {A} (a : A) : sub (@anyb A) := @mk_sub A anyb a eq_refl.

Definition Toy : Crypto := {|
  ed_pk_ok := anyb;
  ed_sig_ok := anyb;
  ed_secret := arr 32;
  ed_public := fun sk => any sk;
  ed_sign := fun sk m => any (toy_sign sk m);
  ed_verify := fun pk m s => arr_eqb (sv s) (toy_sign (sv pk) m);
  rsa_pk_ok := anyb;
  rsa_hash := fun pk m => match sv pk with [] => None | k => Some (k ++ toy_hash m) end;
  rsa_verify := fun pk d s => bytes_eqb d s;
  ct_ok := toy_ct_ok;
  eg_pk_ok := anyb;
  commit_ok := anyb;
  pkproof_ok := anyb;
  dshare_ok := anyb;
  shproof_ok := anyb;
  share_verify := fun sh proof ct => cval_eqb (sv sh) (toy_share (sv proof) (sv ct));
  threshold_decrypt := fun k ct shares =>
    if Nat.leb (N.to_nat (u8v k)) (distinct (map (fun p => fst (fst p)) shares))
       && forallb (fun p => cval_eqb (sv (snd p)) (toy_share (sv (snd (fst p))) (sv ct))) shares
    then Some (toy_plain (sv ct)) else None;
  shuffle_verify := fun seed n ins outs key proof =>
    cval_eqb (sv proof) (CArr [CBytes seed; sv key]) && (n =? N.of_nat (length ins))%N
    && perm_rows (map (map (fun c => toy_plain (sv c))) ins) (map (map (fun c => toy_plain (sv c))) outs)
|}.

Lemma toy_ed_sign_verifies : @ed_sign_verifies Toy.
Proof.
  intros sk m. apply arr_eqb_eq. reflexivity.
Qed.

(** files using the toy instance declare it with [Local Existing Instance Toy] *)
(** small constructors for examples *)
Definition key_of (b : byte) : arr 32 := arr_rep b 32.
Definition pk_of (b : byte) : @PublicKey Toy := any (key_of b).
Definition ct_of (m : bytes) (n : N) : @Ciphertext Toy :=
  @mk_sub cval toy_ct_ok (CArr [CBytes m; CUint (u_of 8 n)]) eq_refl.
