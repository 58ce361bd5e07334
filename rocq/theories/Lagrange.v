(** * Lagrange: interpolation over an arbitrary field. *)
From Coq Require Import List NArith Arith Wf_nat Field_theory Field Lia.
Import ListNotations.
Set Implicit Arguments.

Class Fld := {
  F : Type; f0 : F; f1 : F;
  fadd : F -> F -> F; fmul : F -> F -> F; fsub : F -> F -> F; fopp : F -> F;
  fdiv : F -> F -> F; finv : F -> F;
  f_field : field_theory f0 f1 fadd fmul fsub fopp fdiv finv eq
}.
Declare Scope F_scope.
Infix "+" := fadd : F_scope.
Infix "*" := fmul : F_scope.
Infix "-" := fsub : F_scope.
Infix "/" := fdiv : F_scope.
Notation "0" := f0 : F_scope.
Notation "1" := f1 : F_scope.
Delimit Scope F_scope with F.

Section Lagrange.
  Context {K : Fld}.
  Add Field KF : f_field.
  Open Scope F_scope.

  (** the polynomial with coefficients [p], constant term first *)
  Fixpoint eval (p : list F) (z : F) : F :=
    match p with [] => 0 | a :: p' => a + z * eval p' z end.
  Fixpoint fsum {A} (f : A -> F) (l : list A) : F :=
    match l with [] => 0 | x :: l' => f x + fsum f l' end.
  (** indices are numbers; [x i] is the point with index [i] *)
  Context (x : N -> F).
  Fixpoint basis (z : F) (I : list N) (i : N) : F :=
    match I with
    | [] => 1
    | j :: I' => if N.eqb j i then basis z I' i else (z - x j) / (x i - x j) * basis z I' i
    end.

  Lemma fsum_ext {A} (f g : A -> F) l : (forall a, In a l -> f a = g a) -> fsum f l = fsum g l.
  Proof.
    induction l as [|a l IH]; intros H; cbn [fsum]; [reflexivity|].
    rewrite H by (left; reflexivity). rewrite IH; [reflexivity|]. intros b B. apply H. right. exact B.
  Qed.
  Lemma fsum_add {A} (f g : A -> F) l : fsum (fun a => f a + g a) l = fsum f l + fsum g l.
  Proof. induction l as [|a l IH]; cbn [fsum]; [ring|]. rewrite IH. ring. Qed.
  Lemma fsum_mul {A} c (f : A -> F) l : fsum (fun a => c * f a) l = c * fsum f l.
  Proof. induction l as [|a l IH]; cbn [fsum]; [ring|]. rewrite IH. ring. Qed.

  (** different indices have different points *)
  Definition separate (I : list N) : Prop := forall i j, In i I -> In j I -> i <> j -> x i - x j <> 0.
  Lemma separate_sub I J : incl J I -> separate I -> separate J.
  Proof. intros S H i j A B. apply H; apply S; assumption. Qed.

  Lemma basis_cons z j I i : j <> i -> basis z (j :: I) i = (z - x j) / (x i - x j) * basis z I i.
  Proof. intros N. cbn [basis]. destruct (N.eqb_spec j i); [contradiction|reflexivity]. Qed.
  Lemma basis_self z I i : basis z (i :: I) i = basis z I i.
  Proof. cbn [basis]. rewrite N.eqb_refl. reflexivity. Qed.

  (** the basis polynomials add up to 1 *)
  Lemma basis_unity z n : forall I, length I = n -> I <> [] -> NoDup I -> separate I -> fsum (basis z I) I = 1.
  Proof.
    induction n as [n IH] using lt_wf_ind. intros [|a [|b I]] L NE ND S; [contradiction| |].
    - cbn [fsum]. rewrite basis_self. cbn [basis]. ring.
    - assert (IHa : fsum (basis z (a :: I)) (a :: I) = 1).
      { apply (IH (length (a :: I))); [cbn [length] in *; lia|reflexivity|discriminate| |].
        - inversion ND as [|? ? Na ND']. inversion ND'. constructor; [|assumption]. intros X. apply Na. right. exact X.
        - eapply separate_sub; [|exact S]. intros y [->|Y]; [left; reflexivity|right; right; exact Y]. }
      assert (IHb : fsum (basis z (b :: I)) (b :: I) = 1).
      { apply (IH (length (b :: I))); [cbn [length] in *; lia|reflexivity|discriminate| |].
        - inversion ND. assumption.
        - eapply separate_sub; [|exact S]. intros y Y. right. exact Y. }
      inversion ND as [|? ? Na ND']. inversion ND' as [|? ? Nb ND'']. subst.
      assert (Nab : a <> b) by (intros ->; apply Na; left; reflexivity).
      assert (D : x a - x b <> 0) by (apply S; cbn; auto).
      assert (D' : x b - x a <> 0) by (apply S; cbn; auto).
      cbn [fsum] in IHa, IHb |- *. rewrite basis_self in *. rewrite (@basis_cons z b I a) by congruence.
      rewrite (@basis_cons z a (b :: I) b), basis_self by congruence.
      (* Neville: (x b - x a) * sum = (z - x a) * sum over (b::I) - (z - x b) * sum over (a::I) *)
      assert (T : fsum (basis z (a :: b :: I)) I
                  = ((z - x a) * fsum (basis z (b :: I)) I - (z - x b) * fsum (basis z (a :: I)) I) / (x b - x a)).
      { transitivity (((z - x a) / (x b - x a)) * fsum (basis z (b :: I)) I + ((x b - z) / (x b - x a)) * fsum (basis z (a :: I)) I).
        - rewrite <- !fsum_mul, <- fsum_add. apply fsum_ext. intros i Ii.
          assert (Ia : a <> i) by (intros ->; apply Na; right; exact Ii).
          assert (Ib : b <> i) by (intros ->; apply Nb; exact Ii).
          assert (Ei : x i - x a <> 0) by (apply S; cbn; auto).
          assert (Fi : x i - x b <> 0) by (apply S; cbn; auto).
          rewrite (@basis_cons z a (b :: I) i), (@basis_cons z b I i), (@basis_cons z a I i) by assumption. field. auto.
        - field. auto. }
      rewrite T. 
      assert (Sa : fsum (basis z (a :: I)) I = 1 - basis z I a) by (rewrite <- IHa; ring).
      assert (Sb : fsum (basis z (b :: I)) I = 1 - basis z I b) by (rewrite <- IHb; ring).
      rewrite Sa, Sb. field. auto.
  Qed.

  (** division by (z - a) *)
  Fixpoint quotient (p : list F) (a : F) : list F :=
    match p with [] => [] | [_] => [] | _ :: p' => eval p' a :: quotient p' a end.
  Lemma quotient_length p a : length (quotient p a) = pred (length p).
  Proof.
    induction p as [|c [|d p] IH]; [reflexivity|reflexivity|]. cbn [quotient length pred]. f_equal. exact IH.
  Qed.
  Lemma quotient_eval p a z : eval p z = eval p a + (z - a) * eval (quotient p a) z.
  Proof.
    induction p as [|c [|d p] IH]; [cbn [eval quotient]; ring|cbn [eval quotient]; ring|].
    change (quotient (c :: d :: p) a) with (eval (d :: p) a :: quotient (d :: p) a).
    remember (d :: p) as q eqn:E. cbn [eval]. rewrite IH. ring.
  Qed.

  (** a polynomial with at most as many coefficients as points is the sum of its values times the basis *)
  Theorem interpolation z : forall I p, I <> [] -> NoDup I -> separate I -> length p <= length I ->
    fsum (fun i => basis z I i * eval p (x i)) I = eval p z.
  Proof.
    induction I as [|a I IH]; intros p NE ND S L; [contradiction|].
    inversion ND as [|? ? Na ND']. subst.
    assert (U : fsum (basis z (a :: I)) (a :: I) = 1) by (apply basis_unity with (n := length (a :: I)); auto).
    assert (V : fsum (fun i => basis z I i * eval (quotient p (x a)) (x i)) I = eval (quotient p (x a)) z).
    { destruct I as [|b I].
      - cbn [fsum]. destruct p as [|c [|d p]]; [reflexivity|reflexivity|]. cbn [length] in L. lia.
      - apply IH; [discriminate|exact ND'| |rewrite quotient_length; cbn [length] in *; lia].
        eapply separate_sub; [|exact S]. intros y Y. right. exact Y. }
    transitivity (eval p (x a) * fsum (basis z (a :: I)) (a :: I)
                  + (z - x a) * fsum (fun i => basis z I i * eval (quotient p (x a)) (x i)) I).
    - cbn [fsum]. rewrite basis_self.
      transitivity (basis z I a * eval p (x a)
        + (eval p (x a) * fsum (basis z (a :: I)) I + (z - x a) * fsum (fun i => basis z I i * eval (quotient p (x a)) (x i)) I));
        [|ring].
      f_equal. rewrite <- !fsum_mul, <- fsum_add. apply fsum_ext. intros i Ii.
      assert (Ia : a <> i) by (intros ->; contradiction).
      assert (Ei : x i - x a <> 0) by (apply S; cbn; auto).
      rewrite (quotient_eval p (x a) (x i)). rewrite (@basis_cons z a I i) by assumption. field. auto.
    - rewrite U, V. rewrite (quotient_eval p (x a) z). ring.
  Qed.

  (** sums of polynomials *)
  Fixpoint padd (p q : list F) : list F :=
    match p, q with [], _ => q | _, [] => p | a :: p', b :: q' => (a + b) :: padd p' q' end.
  Lemma padd_eval p : forall q z, eval (padd p q) z = eval p z + eval q z.
  Proof.
    induction p as [|a p IH]; intros [|b q] z; cbn [padd eval]; [ring|ring|ring|]. rewrite IH. ring.
  Qed.
  Lemma padd_length p : forall q, length (padd p q) = Nat.max (length p) (length q).
  Proof. induction p as [|a p IH]; intros [|b q]; cbn [padd length Nat.max]; auto. Qed.
  Definition psum {A} (f : A -> list F) (l : list A) : list F := fold_right (fun a acc => padd (f a) acc) [] l.
  Lemma psum_eval {A} (f : A -> list F) l z : eval (psum f l) z = fsum (fun a => eval (f a) z) l.
  Proof. induction l as [|a l IH]; cbn [psum fold_right fsum]; [reflexivity|]. rewrite padd_eval. fold (psum f l). rewrite IH. reflexivity. Qed.
  Lemma psum_length {A} (f : A -> list F) l k : (forall a, In a l -> length (f a) <= k) -> length (psum f l) <= k.
  Proof.
    induction l as [|a l IH]; intros H; cbn [psum fold_right]; [cbn; lia|]. rewrite padd_length. fold (psum f l).
    pose proof (H a (or_introl eq_refl)). assert (length (psum f l) <= k) by (apply IH; intros b B; apply H; right; exact B). lia.
  Qed.
End Lagrange.

(** a module over the field, written additively *)
Class Mdl {K : Fld} := {
  G : Type; g0 : G; gadd : G -> G -> G; smul : F -> G -> G;
  g_add0 : forall a, gadd g0 a = a;
  g_comm : forall a b, gadd a b = gadd b a;
  g_assoc : forall a b c, gadd a (gadd b c) = gadd (gadd a b) c;
  s_zero : forall a, smul f0 a = g0;
  s_add : forall u v a, smul (fadd u v) a = gadd (smul u a) (smul v a);
  s_addg : forall u a b, smul u (gadd a b) = gadd (smul u a) (smul u b);
  s_mul : forall u v a, smul (fmul u v) a = smul u (smul v a)
}.
Section Module.
  Context {K : Fld} {M : Mdl}.
  Add Field KF2 : f_field.
  Fixpoint gsum {A} (f : A -> G) (l : list A) : G :=
    match l with [] => g0 | x :: l' => gadd (f x) (gsum f l') end.
  Lemma gsum_ext {A} (f h : A -> G) l : (forall a, In a l -> f a = h a) -> gsum f l = gsum h l.
  Proof.
    induction l as [|a l IH]; intros H; cbn [gsum]; [reflexivity|].
    rewrite H by (left; reflexivity). rewrite IH; [reflexivity|]. intros b B. apply H. right. exact B.
  Qed.
  Lemma gsum_smul {A} (f : A -> F) c l : gsum (fun a => smul (f a) c) l = smul (fsum f l) c.
  Proof. induction l as [|a l IH]; cbn [gsum fsum]; [rewrite s_zero; reflexivity|]. rewrite IH, s_add. reflexivity. Qed.
  (** evaluation of a polynomial whose coefficients are in the module *)
  Fixpoint geval (p : list G) (z : F) : G :=
    match p with [] => g0 | a :: p' => gadd a (smul z (geval p' z)) end.
  Lemma smul_g0 u : smul u g0 = g0.
  Proof. rewrite <- (s_zero g0), <- s_mul. f_equal. ring. Qed.
  Lemma geval_map p b z : geval (map (fun a => smul a b) p) z = smul (eval p z) b.
  Proof.
    induction p as [|a p IH]; cbn [map geval eval]; [rewrite s_zero; reflexivity|].
    rewrite IH, <- s_mul, <- s_add. reflexivity.
  Qed.
End Module.
