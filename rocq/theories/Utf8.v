(** * Utf8: Rust strings as valid UTF-8 byte sequences ([String]/[str] invariant, [str::from_utf8]). *)
From Verif Require Import Base.

(** Values of [A] accepted by a boolean test; equality is equality of the underlying value. *)
Record sub {A : Type} (P : A -> bool) := mk_sub { sv : A; s_ok : P sv = true }.
Arguments mk_sub {A P} _ _.
Arguments sv {A P} _.
Arguments s_ok {A P} _.

Lemma sub_ext {A} {P : A -> bool} (a b : sub P) : sv a = sv b -> a = b.
Proof.
  destruct a as [a pa], b as [b pb]; cbn; intros H; subst b. f_equal; apply bool_true_irrel.
Qed.

(** [try_from]: keep the value if the test succeeds *)
Definition sub_of {A} (P : A -> bool) (a : A) : option (sub P) :=
  match P a as b return (P a = b -> _) with
  | true => fun h => Some (mk_sub a (norm_true h))
  | false => fun _ => None
  end eq_refl.

Lemma sub_of_some {A} (P : A -> bool) a s : sub_of P a = Some s <-> sv s = a.
Proof.
  unfold sub_of.
  assert (G : forall c (h : P a = c),
    match c as b return (P a = b -> _) with
    | true => fun h => Some (mk_sub a (norm_true h)) | false => fun _ => None end h = Some s
    <-> sv s = a).
  { intros [|] h; split; intros H.
    - injection H as <-. reflexivity.
    - f_equal. apply sub_ext. auto.
    - discriminate.
    - pose proof (s_ok s) as K. rewrite H in K. congruence. }
  apply G.
Qed.
Lemma sub_of_sv {A} {P : A -> bool} (s : sub P) : sub_of P (sv s) = Some s.
Proof. apply sub_of_some. reflexivity. Qed.

Definition in_range (lo hi : N) (b : byte) : bool := ((lo <=? u8v b) && (u8v b <=? hi))%N.
Definition cont (b : byte) : bool := in_range 128 191 b.

(** Well-formed UTF-8 (Unicode table 3-7), as checked by [core::str::from_utf8]. *)
Fixpoint utf8_valid (l : bytes) : bool :=
  match l with
  | [] => true
  | a :: l1 =>
      if in_range 0 127 a then utf8_valid l1
      else if in_range 194 223 a then
        match l1 with b :: l2 => cont b && utf8_valid l2 | _ => false end
      else if in_range 224 239 a then
        match l1 with
        | b :: c :: l3 =>
            (if in_range 224 224 a then in_range 160 191 b
             else if in_range 237 237 a then in_range 128 159 b else cont b)
            && cont c && utf8_valid l3
        | _ => false
        end
      else if in_range 240 244 a then
        match l1 with
        | b :: c :: d :: l4 =>
            (if in_range 240 240 a then in_range 144 191 b
             else if in_range 244 244 a then in_range 128 143 b else cont b)
            && cont c && cont d && utf8_valid l4
        | _ => false
        end
      else false
  end.

(** Rust [String] *)
Definition rstring := sub utf8_valid.
Definition rs_eqb (a b : rstring) : bool := bytes_eqb (sv a) (sv b).
