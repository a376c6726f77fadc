(** * Concrete cases for the gluon-pole program *)
From Coq Require Import Reals Psatz List Lia Arith.
From Coquelicot Require Import Coquelicot.
From Verif Require Import Num CField MCommon MConsts MUtils MVacuum MThermalZP MDress MPoles SpecConsts SpecInteg SpecPoles PCplx PVac PUtils PExInteg PSym PPoles PPoles2.
Import List ListNotations.
Open Scope R_scope.

(** Every quadrature rule with real weights. *)
Definition quadratureJ (rule : R -> R -> list (R * R)) : Integrator := {|
  integrateC := fun f a b _ => fold_right (fun x acc => (RtoC (snd x) * f (fst x) + acc)%C) (RtoC 0) (rule a b);
  integrateR := fun f a b _ => fold_right (fun x acc => snd x * f (fst x) + acc) 0 (rule a b) |}.
Lemma ex_quadrature_conj rule : commutes_with_conj (quadratureJ rule).
Proof.
  intros f a b I. cbn. induction (rule a b) as [|[x w] l IH]; cbn [fold_right fst snd].
  - now rewrite conj_RtoC.
  - now rewrite IH, conj_plus, conj_mult, conj_RtoC.
Qed.

Lemma two_le_max : (2 <= MAX_ITER)%nat.
Proof. unfold MAX_ITER. apply Nat.le_trans with (2 * 1)%nat; [lia|]. apply Nat.mul_le_mono; apply Nat.leb_le; reflexivity. Qed.

Lemma crt_C (x y : C) : fst x = fst y -> snd x = snd y -> x = y.
Proof. destruct x, y. cbn. now intros -> ->. Qed.

Lemma found_inj {A B} (a b : A) (x y : B) : Found (a, x) = Found (b, y) -> a = b /\ x = y.
Proof. intros H. now inversion H. Qed.

(** Vacuum: the root - 3 - 4 i of s + 3 + 4 i. *)
Lemma Csqrt_34 : Csqrt (3, 4) = (2, 1).
Proof.
  pose proof (Csqrt_sqr (3, 4)) as E. pose proof (Csqrt_re_nonneg (3, 4)) as P. destruct (Csqrt (3, 4)) as [a b]. cbn in P.
  assert (E1 : a * a - b * b = 3) by (apply (f_equal fst) in E; cbn in E; lra).
  assert (E2 : 2 * a * b = 4) by (apply (f_equal snd) in E; cbn in E; lra).
  assert (F : (a * a - 4) * (a * a + 1) = 0) by (replace ((a * a - 4) * (a * a + 1)) with ((2 * a * b) * (2 * a * b) / 4 - 4 + a * a * (a * a - b * b - 3)) by field; rewrite E1, E2; field).
  assert (A : a = 2) by (apply Rmult_integral in F as [F|F]; nra). subst a. apply crt_C; cbn; lra.
Qed.

Lemma ex_vacuum : find_pole (fun s => (s + (3, 4))%C) = Found (((2, 1) * RtoC (656 / 1000))%C, - (4 / 3)).
Proof.
  assert (E : pole_find_root (fun s => (s + (3, 4))%C) = Ret (Some ((-3, -4), RtoC 0))).
  { unfold pole_find_root. replace (fun s : C => (s + (3, 4))%C) with (fun s : C => (RtoC 1 * s + (3, 4))%C).
    - rewrite affine_C.
      + do 3 f_equal. apply crt_C; cbn; field.
      + apply RtoC_neq. lra.
      + intros H. apply (f_equal fst) in H. cbn in H. lra.
      + apply TOL_pos.
      + exact two_le_max.
      + rewrite TOL_acc. unfold accuracy. apply Rle_trans with 1; [lra|].
        eapply Rle_trans; [|apply (Rmax_Cmod (RtoC 1 * Z1 + (3, 4))%C)]. eapply Rle_trans; [|apply Rmax_l]. cbn. rewrite Rabs_pos_eq; lra.
    - apply FunctionalExtensionality.functional_extensionality. intros s. ring. }
  unfold find_pole. rewrite E. cbv zeta. f_equal.
  assert (V : vacuum_residue compute_residue (fun s => (s + (3, 4))%C) (-3, -4) = (-3 / 25, 4 / 25)).
  { unfold vacuum_residue, compute_residue.
    replace (fun z : C => (RtoC 1 / (z + (3, 4)))%C) with (fun z : C => (RtoC 1 / (z - (-3, -4)))%C).
    - rewrite residue_exact_C.
      + apply crt_C; cbn; field.
      + apply RtoC_neq. lra.
      + apply Rgt_not_eq, Rinv_0_lt_compat, pow_lt. lra.
    - apply FunctionalExtensionality.functional_extensionality. intros s. replace (s - (-3, -4))%C with (s + (3, 4))%C by (apply crt_C; cbn; ring). reflexivity. }
  rewrite V. cbn [fst snd].
  assert (P : forall (a b : C) (x y : R), a = b -> x = y -> (a, x) = (b, y)) by (now intros; subst).
  apply P.
  - replace (- (-3, -4))%C with ((3, 4) : C) by (apply crt_C; cbn; ring). now rewrite Csqrt_34.
  - field.
Qed.

(** Thermal: om^4 + 1/4 has the root - 1/2 - i/2; the residue in om^2 is real,
    the finite difference with step 1e-12 gives the ratio -2e-24. *)
Definition quartic (w : C) : C := (w * w * (w * w) + RtoC (1 / 4))%C.
Lemma ex_quartic_four_fold : four_fold quartic.
Proof.
  split; intros w; unfold quartic; [ring|]. intros _. now rewrite conj_plus, !conj_mult, conj_RtoC.
Qed.
Lemma quartic_Z1 : quartic Z1 = RtoC 0.
Proof. unfold quartic, Z1. apply crt_C; cbn; field. Qed.

Lemma ex_thermal : find_thermal_pole quartic = Found ((1 / 2, 1 / 2), - (2 / 10 ^ 24)).
Proof.
  assert (E : pole_find_root quartic = Ret (Some (Z1, quartic Z1))).
  { unfold pole_find_root, find_root. cbn [fst snd ro_eq ro_pos RootOpsC]. destruct (Ceq_dec Z0 Z1) as [X|X].
    - apply (f_equal fst) in X. cbn in X. lra.
    - destruct (Rlt_dec 0 TOL) as [L|L]; [|exfalso; apply L, TOL_pos]. cbn [negb]. f_equal.
      pose proof two_le_max as T. destruct MAX_ITER as [|n]; [lia|]. cbn [find_root_loop ro_nan ro_small RootOpsC].
      rewrite quartic_Z1, Cmod_0. destruct (Rlt_dec 0 TOL); [reflexivity|contradiction]. }
  assert (F : exists p z, find_thermal_pole quartic = Found (p, z)).
  { destruct (find_thermal_pole_symmetric quartic ex_quartic_four_fold) as [H|H]; auto.
    unfold find_thermal_pole in H. rewrite E in H. destruct (_ || _)%bool in H; discriminate. }
  destruct F as (p & z & F). rewrite F. unfold find_thermal_pole in F. rewrite E in F. destruct (_ || _)%bool in F; [discriminate|]. cbv zeta in F.
  apply found_inj in F as [Hp Hz]. symmetry in Hp, Hz.
  assert (P : forall (a b : C) (x y : R), a = b -> x = y -> Found (a, x) = Found (b, y)) by (now intros; subst).
  apply P.
  - rewrite Hp. unfold Z1. apply crt_C; cbn; field.
  - rewrite Hz. unfold thermal_residue, compute_residue, compute_residue_with_eps. numcbn.
    set (e := / 10 ^ 12). assert (He : 0 < e) by (apply Rinv_0_lt_compat, pow_lt; lra).
    replace (2 / 10 ^ 24) with (2 * (e * e)) by (unfold e; field).
    pose (h2 := (0, 1 / 2) : C).
    assert (HZ : (Z1 * Z1)%C = h2) by (unfold Z1; apply crt_C; cbn; field).
    assert (N2 : RtoC 2 <> RtoC 0) by (apply RtoC_neq; lra).
    assert (Ne : RtoC e <> RtoC 0) by (apply RtoC_neq; lra).
    assert (NZ : Z1 <> RtoC 0) by (intros X; apply (f_equal fst) in X; cbn in X; lra).
    assert (ND : forall x : C, x <> RtoC 0 -> (RtoC 1 / x)%C <> RtoC 0).
    { intros x Nx X. apply (f_equal (fun y => y * x)%C) in X. replace (RtoC 1 / x * x)%C with (RtoC 1) in X by (field; auto). replace (RtoC 0 * x)%C with (RtoC 0) in X by ring. apply RtoC_inj in X. lra. }
    assert (II : forall x : C, (/ (RtoC 1 / x))%C = x).
    { intros x. destruct (Ceq_dec x (RtoC 0)) as [->|Nx].
      - unfold Cdiv. rewrite Cinv_0. replace (RtoC 1 * RtoC 0)%C with (RtoC 0) by ring. apply Cinv_0.
      - field. auto. }
    rewrite !II.
    assert (D : (quartic (Z1 + RtoC e) - quartic (Z1 - RtoC e))%C = (RtoC 8 * RtoC e * Z1 * (Z1 * Z1 + RtoC e * RtoC e))%C) by (unfold quartic; ring).
    rewrite D, HZ. clear D II ND.
    assert (NQ : (h2 + RtoC e * RtoC e)%C <> RtoC 0) by (intros X; apply (f_equal snd) in X; cbn in X; lra).
    assert (N8 : RtoC 8 <> RtoC 0) by (apply RtoC_neq; lra).
    replace (/ (RtoC 8 * RtoC e * Z1 * (h2 + RtoC e * RtoC e)) * RtoC 2 * RtoC e * RtoC 2 / Z1)%C
      with (/ (RtoC 2 * (Z1 * Z1) * (h2 + RtoC e * RtoC e)))%C.
    2:{ generalize dependent (h2 + RtoC e * RtoC e)%C. intros Q NQ. replace (RtoC 8) with (RtoC 2 * RtoC 2 * RtoC 2)%C in * by (apply crt_C; cbn; ring). field. auto. }
    rewrite HZ. rewrite conj_inv.
    replace (Cconj (RtoC 2 * h2 * (h2 + RtoC e * RtoC e))%C) with ((- (1 / 2), - (e * e)) : C) by (unfold h2; apply crt_C; cbn; field).
    unfold Cinv. cbn [fst snd]. field. nra.
Qed.

(** Residue in s of 1 / (s (s - s0)) at s0 = 2 i, the square of - 1 - i. *)
Lemma ex_simple_pole : simple_pole (fun s => / (s * (fun w => w * w - (0, 2)) (Csqrt s)))%C ((-1, -1) * (-1, -1))%C (/ (0, 2))%C.
Proof.
  replace ((-1, -1) * (-1, -1))%C with ((0, 2) : C) by (apply crt_C; cbn; ring).
  assert (N : ((0, 2) : C) <> RtoC 0) by (intros X; apply (f_equal snd) in X; cbn in X; lra).
  apply (Clim_ext (fun s => / s)%C); [|apply Clim_inv; auto; apply Clim_id].
  destruct (near_nonzero _ N) as (d & Hd & K). exists d. split; auto. intros w W. destruct (K w W) as [Nw _].
  rewrite Csqrt_sqr. field. split; auto. intros X. rewrite X, Cmod_0 in W. lra.
Qed.

(** Massless bubble at om = 1 + i, 1 - i, - 1 - i. *)
Lemma ex_zp_00 : let K := 2 * (PI * PI) * (exp 1 - 1) in
  zp_i_0_0_i 1 ((1, 1) : C) 1 = (2 / 5 / K, - (1 / 5) / K) /\
  zp_i_0_0_i 1 ((1, -1) : C) 1 = (2 / 5 / K, 1 / 5 / K) /\ zp_i_0_0_i 1 ((-1, -1) : C) 1 = (2 / 5 / K, - (1 / 5) / K).
Proof.
  intros K. assert (PK : 0 < exp 1 - 1) by (pose proof (exp_ineq1 1); lra).
  pose proof PI_neq0 as P.
  assert (A : zp_i_0_0_i 1 ((1, 1) : C) 1 = (2 / 5 / K, - (1 / 5) / K)).
  { unfold zp_i_0_0_i. rewrite bose_val, Rmult_1_r. numcbn. change MThermal.PI2 with (PI * PI).
    replace (/ ((1, 1) * (1, 1) + RtoC 1 * ((1, 1) * Ci * RtoC 2)) + / ((1, 1) * (1, 1) - RtoC 1 * ((1, 1) * Ci * RtoC 2)))%C with ((2 / 5, - (1 / 5)) : C) by (apply crt_C; cbn; field).
    assert (G : forall a b x y : R, b <> 0 -> (RtoC a * (x, y) * RtoC 1 / RtoC b)%C = (a * x / b, a * y / b)) by (intros; apply crt_C; cbn; field; auto).
    rewrite G. 2:{ apply Rmult_integral_contrapositive_currified; [lra|]. apply Rmult_integral_contrapositive_currified; auto. } unfold K. apply crt_C; cbn [fst snd]; field; repeat split; auto; lra. }
  assert (B : zp_i_0_0_i 1 ((-1, -1) : C) 1 = (2 / 5 / K, - (1 / 5) / K)).
  { rewrite <- A. assert (E : ((-1, -1) : C) = (- (1, 1))%C) by (apply crt_C; cbn; ring). rewrite E.
    pose proof (zp_bubbles_0_even 1 1 ((1, 1) : C)) as H. apply (f_equal (fun l => nth 0 l (RtoC 0))) in H. exact H. }
  split; [exact A|]. split; [|exact B].
  replace ((1, -1) : C) with (Cconj (1, 1)) by (apply crt_C; cbn; ring).
  pose proof (PSymC.zp_bubbles_0_conj 1 1 ((1, 1) : C)) as H. apply (f_equal (fun l => nth 0 l (RtoC 0))) in H. cbn [nth map zp_bubbles_0] in H.
  rewrite H, A. apply crt_C; cbn [fst snd Cconj]; unfold K; field; repeat split; auto; lra.
Qed.
