(** * SpecAgree: two stores that differ only in the helper fields of trustees. *)
From Verif Require Import Base Ident Crypto Types Store SpecSerde.

Section Spec.
  Context {C : Crypto}.

  Definition stx_agree (x y : STx) : Prop := content_agree (s_tx x) (s_tx y) /\ s_sig x = s_sig y.

  (** same outcome, with related values *)
  Inductive res_agree {E A B} (R : A -> B -> Prop) : res E A -> res E B -> Prop :=
  | ra_ok : forall a b, R a b -> res_agree R (Ok a) (Ok b)
  | ra_err : forall e, res_agree R (Err e) (Err e)
  | ra_panic : forall p, res_agree R (Panic p) (Panic p).
  Inductive opt_agree {A B} (R : A -> B -> Prop) : option A -> option B -> Prop :=
  | oa_some : forall a b, R a b -> opt_agree R (Some a) (Some b)
  | oa_none : opt_agree R None None.

  Definition store_agree (s s' : Store) : Prop :=
    (forall i, res_agree (opt_agree stx_agree) (st_get s i) (st_get s' i))
    /\ (forall a b, res_agree (Forall2 stx_agree) (st_range s a b) (st_range s' a b)).
End Spec.
