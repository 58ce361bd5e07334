(** * Base: results with panics, bytes, fixed arrays, bounded integers, byte order.

    Shared vocabulary of the model.  Nothing here models a particular Rust
    function except where a comment says so. *)
From Coq Require Export List Arith NArith ZArith Lia Bool.
From Coq Require Export Init.Byte Strings.Byte.
From Coq Require Import Eqdep_dec.
Export ListNotations.
Set Implicit Arguments.

(** ** Results *)

(** Why the Rust code would panic. *)
Inductive panic :=
| PUnwrap        (* Option/Result::unwrap *)
| PExpect        (* Option/Result::expect *)
| PWrongType     (* panic!("wrong transaction type expected"), transaction.rs 583-911 *)
| PIndex         (* slice or Vec index out of range *)
| POverflow      (* integer overflow with overflow checks on (debug build) *)
| PTodo          (* todo!() *)
| PUnimplemented (* unimplemented!() *)
| PRange         (* BTreeMap::range called with start > end *)
| PAssert        (* explicit panic!/assert! *).

(** [Result<A, E>] plus the possibility of a panic. *)
Inductive res (E A : Type) :=
| Ok (a : A)
| Err (e : E)
| Panic (p : panic).
Arguments Ok {E A} _.
Arguments Err {E A} _.
Arguments Panic {E A} _.

Definition bind {E A B} (m : res E A) (f : A -> res E B) : res E B :=
  match m with Ok a => f a | Err e => Err e | Panic p => Panic p end.

Definition map_err {E F A} (f : E -> F) (m : res E A) : res F A :=
  match m with Ok a => Ok a | Err e => Err (f e) | Panic p => Panic p end.

Definition ok_or {E A} (o : option A) (e : E) : res E A :=
  match o with Some a => Ok a | None => Err e end.

Definition or_panic {E A} (o : option A) (p : panic) : res E A :=
  match o with Some a => Ok a | None => Panic p end.

(** [if c { return Err(e) }] *)
Definition fail_if {E} (c : bool) (e : E) : res E unit :=
  if c then Err e else Ok tt.

Declare Scope res_scope.
Notation "'let!' x ':=' m 'in' k" := (bind m (fun x => k))
  (at level 200, x pattern, m at level 100, k at level 200, right associativity) : res_scope.
Notation "m ';;' k" := (bind m (fun _ => k))
  (at level 199, right associativity) : res_scope.
Open Scope res_scope.

Definition is_ok {E A} (m : res E A) : bool :=
  match m with Ok _ => true | _ => false end.
Definition is_panic {E A} (m : res E A) : bool :=
  match m with Panic _ => true | _ => false end.

(** Run [f] over a list, stopping at the first error or panic ([for x in l { f(x)?; }]). *)
Fixpoint for_each {E A} (l : list A) (f : A -> res E unit) : res E unit :=
  match l with
  | [] => Ok tt
  | x :: l' => f x ;; for_each l' f
  end.

(** Collect [f x] for all [x], stopping at the first error or panic. *)
Fixpoint map_res {E A B} (f : A -> res E B) (l : list A) : res E (list B) :=
  match l with
  | [] => Ok []
  | x :: l' => let! y := f x in let! ys := map_res f l' in Ok (y :: ys)
  end.

(** ** Boolean proofs: canonical proof terms so that closed values compute. *)
Definition norm_true {b : bool} : b = true -> b = true :=
  match b with true => fun _ => eq_refl | false => fun h => h end.

Lemma bool_true_irrel (b : bool) (p q : b = true) : p = q.
Proof. apply UIP_dec. decide equality. Qed.

(** ** Bytes: [u8] *)
Notation u8 := byte (only parsing).

Definition u8v (b : byte) : N := Byte.to_N b.
(** [n as u8]: wrap modulo 256. *)
Definition u8_of (n : N) : byte :=
  match Byte.of_N (N.modulo n 256) with Some b => b | None => x00 end.

Definition byte_cmp (a b : byte) : comparison := N.compare (u8v a) (u8v b).

(** Addition and subtraction on [u8]; [dbg = true] models a build with overflow
    checks (debug), [dbg = false] a release build, which wraps. *)
Definition u8_add {E} (dbg : bool) (a b : byte) : res E byte :=
  let s := (u8v a + u8v b)%N in
  if (s <? 256)%N then Ok (u8_of s)
  else if dbg then Panic POverflow else Ok (u8_of s).
Definition u8_sub {E} (dbg : bool) (a b : byte) : res E byte :=
  if (u8v b <=? u8v a)%N then Ok (u8_of (u8v a - u8v b))
  else if dbg then Panic POverflow else Ok (u8_of (u8v a + 256 - u8v b)).

(** ** Byte strings and lexicographic order ([Ord] for slices, arrays and [str]) *)
Definition bytes := list byte.

Fixpoint bytes_eqb (a b : bytes) : bool :=
  match a, b with
  | [], [] => true
  | x :: a', y :: b' => Byte.eqb x y && bytes_eqb a' b'
  | _, _ => false
  end.

Fixpoint lex (a b : bytes) : comparison :=
  match a, b with
  | [], [] => Eq
  | [], _ :: _ => Lt
  | _ :: _, [] => Gt
  | x :: a', y :: b' =>
      match byte_cmp x y with Eq => lex a' b' | c => c end
  end.

Definition bytes_leb (a b : bytes) : bool :=
  match lex a b with Gt => false | _ => true end.
Definition bytes_ltb (a b : bytes) : bool :=
  match lex a b with Lt => true | _ => false end.

Fixpoint starts_with (l p : bytes) : bool :=
  match p, l with
  | [], _ => true
  | y :: p', x :: l' => Byte.eqb x y && starts_with l' p'
  | _ :: _, [] => false
  end.

(** ** Fixed-size arrays [[u8; n]] *)
Record arr (n : nat) := mk_arr {
  arr_l : bytes;
  arr_ok : Nat.eqb (length arr_l) n = true
}.
Arguments mk_arr {n} _ _.
Arguments arr_l {n} _.
Arguments arr_ok {n} _.

Lemma arr_len {n} (a : arr n) : length (arr_l a) = n.
Proof. apply Nat.eqb_eq, (arr_ok a). Qed.

Lemma arr_ext {n} (a b : arr n) : arr_l a = arr_l b -> a = b.
Proof.
  destruct a as [a pa], b as [b pb]; cbn; intros H; subst b.
  f_equal; apply bool_true_irrel.
Qed.

Definition arr_eqb {n} (a b : arr n) : bool := bytes_eqb (arr_l a) (arr_l b).

(** [slice.try_into::<[u8; n]>()] *)
Definition arr_of (n : nat) (l : bytes) : option (arr n) :=
  match Nat.eqb (length l) n as b return (Nat.eqb (length l) n = b -> _) with
  | true => fun h => Some (mk_arr l (norm_true h))
  | false => fun _ => None
  end eq_refl.

Lemma arr_app_ok {n m} (a : arr n) (b : arr m) :
  Nat.eqb (length (arr_l a ++ arr_l b)) (n + m) = true.
Proof. rewrite app_length, !arr_len. apply Nat.eqb_refl. Qed.
Definition arr_app {n m} (a : arr n) (b : arr m) : arr (n + m) :=
  mk_arr (arr_l a ++ arr_l b) (norm_true (arr_app_ok a b)).

Definition arr1 (b : byte) : arr 1 := @mk_arr 1 [b] eq_refl.

Lemma arr_rep_ok (b : byte) n : Nat.eqb (length (repeat b n)) n = true.
Proof. rewrite repeat_length. apply Nat.eqb_refl. Qed.
(** [[b; n]] *)
Definition arr_rep (b : byte) (n : nat) : arr n :=
  mk_arr (repeat b n) (norm_true (arr_rep_ok b n)).

Lemma arr_slice_ok {n} (a : arr n) off len :
  Nat.leb (off + len) n = true ->
  Nat.eqb (length (firstn len (skipn off (arr_l a)))) len = true.
Proof.
  intros H; apply Nat.leb_le in H.
  rewrite firstn_length, skipn_length, arr_len. apply Nat.eqb_eq. lia.
Qed.
(** [a[off .. off+len].try_into().unwrap()], in range by construction. *)
Definition arr_slice {n} (a : arr n) (off len : nat) (h : Nat.leb (off + len) n = true) : arr len :=
  mk_arr (firstn len (skipn off (arr_l a))) (norm_true (arr_slice_ok a off len h)).

(** ** Bounded integers: [uN k] is the type of [k]-byte unsigned integers. *)
Definition pow256 (k : nat) : N := N.pow 256 (N.of_nat k).
Record uN (k : nat) := mk_u {
  uv : N;
  u_ok : N.ltb uv (pow256 k) = true
}.
Arguments mk_u {k} _ _.
Arguments uv {k} _.
Arguments u_ok {k} _.
Notation u16 := (uN 2).
Notation u32 := (uN 4).
Notation u64 := (uN 8).

Lemma u_ext {k} (a b : uN k) : uv a = uv b -> a = b.
Proof.
  destruct a as [a pa], b as [b pb]; cbn; intros H; subst b.
  f_equal; apply bool_true_irrel.
Qed.
Lemma uv_lt {k} (a : uN k) : (uv a < pow256 k)%N.
Proof. apply N.ltb_lt, (u_ok a). Qed.

Definition u_eqb {k} (a b : uN k) : bool := N.eqb (uv a) (uv b).

Lemma pow256_nz k : pow256 k <> 0%N.
Proof. unfold pow256. apply N.pow_nonzero. discriminate. Qed.
Lemma u_wrap_ok k n : N.ltb (N.modulo n (pow256 k)) (pow256 k) = true.
Proof. apply N.ltb_lt, N.mod_lt, pow256_nz. Qed.
(** [n as uK]: truncating cast. *)
Definition u_of (k : nat) (n : N) : uN k := mk_u (N.modulo n (pow256 k)) (norm_true (u_wrap_ok k n)).

(** [to_be_bytes] *)
Fixpoint be_list (k : nat) (n : N) : bytes :=
  match k with
  | O => []
  | S k' => u8_of (N.div n (pow256 k')) :: be_list k' n
  end.
Lemma be_list_length k n : length (be_list k n) = k.
Proof. induction k; cbn; auto. Qed.
Lemma be_ok k n : Nat.eqb (length (be_list k n)) k = true.
Proof. rewrite be_list_length. apply Nat.eqb_refl. Qed.
Definition to_be {k} (n : uN k) : arr k := mk_arr (be_list k (uv n)) (norm_true (be_ok k (uv n))).

(** Value of a big-endian byte string. *)
Fixpoint be_val (l : bytes) : N :=
  match l with
  | [] => 0
  | b :: l' => (u8v b * pow256 (length l') + be_val l')%N
  end.
