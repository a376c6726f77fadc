(** * Field tactics on C with integer constants, and RtoC as a morphism *)
From Coq Require Import Reals Psatz ZArith.
From Coquelicot Require Import Coquelicot.
From Verif Require Import Num.
Open Scope R_scope.

Lemma Ceq (z w : C) : fst z = fst w -> snd z = snd w -> z = w.
Proof. destruct z, w; simpl; intros; subst; reflexivity. Qed.

Lemma RtoC_inv' (x : R) : RtoC (/ x) = (/ RtoC x)%C.
Proof.
  destruct (Req_dec x 0) as [->|H].
  - rewrite Rinv_0. unfold Cinv, RtoC; simpl. apply Ceq; simpl; unfold Rdiv; ring.
  - apply RtoC_inv; auto.
Qed.
Lemma RtoC_div' (x y : R) : RtoC (x / y) = (RtoC x / RtoC y)%C.
Proof. unfold Rdiv, Cdiv. now rewrite RtoC_mult, RtoC_inv'. Qed.
Lemma RtoC_pow (x : R) (n : nat) : RtoC (x ^ n) = (pow_n (K := C_Ring) (RtoC x) n).
Proof. induction n; simpl; auto. now rewrite RtoC_mult, IHn. Qed.

Lemma RtoC_neq (x y : R) : x <> y -> RtoC x <> RtoC y.
Proof. intros H E. apply H. now apply RtoC_inj. Qed.

Definition ZtoC (z : Z) : C := RtoC (IZR z).

Lemma C_rm : ring_morph (RtoC 0) (RtoC 1) Cplus Cmult Cminus Copp eq
  0%Z 1%Z Z.add Z.mul Z.sub Z.opp Zeq_bool ZtoC.
Proof.
  unfold ZtoC. constructor; intros; auto.
  - now rewrite plus_IZR, RtoC_plus.
  - now rewrite minus_IZR, RtoC_minus.
  - now rewrite mult_IZR, RtoC_mult.
  - now rewrite opp_IZR, RtoC_opp.
  - f_equal. f_equal. now apply Zeq_bool_eq.
Qed.

Lemma Zeq_bool_IZRC x y : ZtoC x = ZtoC y -> Zeq_bool x y = true.
Proof. intros H. apply Zeq_is_eq_bool. apply eq_IZR. now apply RtoC_inj. Qed.

Ltac CZ_tac t :=
  match t with
  | RtoC ?r => RealField.IZR_tac r
  | _ => constr:(InitialRing.NotConstant)
  end.

Add Field CZfield : C_field_theory
  (morphism C_rm, completeness Zeq_bool_IZRC, constants [CZ_tac]).

(** Push RtoC to the leaves. *)
Ltac pushRtoC :=
  repeat first
    [ rewrite RtoC_plus | rewrite RtoC_minus | rewrite RtoC_mult
    | rewrite RtoC_opp | rewrite RtoC_div' | rewrite RtoC_inv' ].

Lemma Ci2 : (Ci * Ci = - RtoC 1)%C.
Proof. unfold Ci, Cmult, Copp, RtoC; simpl. f_equal; ring. Qed.
