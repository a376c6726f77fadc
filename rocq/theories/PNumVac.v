(** * The vacuum functions agree with the Python reference off the cut *)
From Coq Require Import Reals List Lra Lia Psatz.
From Coquelicot Require Import Coquelicot.
From Verif Require Import Num CField MVacuum SpecVac SpecNumerics PCplx PDistr PVac PVac2 PVacLim PDress2 PCoh PLogs PMass PReal PReg.
Import List ListNotations.
Open Scope R_scope.

Lemma Cexp_inj z w : Cexp z = Cexp w -> - (2 * PI) < snd z - snd w < 2 * PI -> z = w.
Proof.
  destruct z as [a b], w as [c d]. unfold Cexp. cbn [fst snd]. intros E H.
  injection E as E1 E2. pose proof (exp_pos a). pose proof (exp_pos c).
  pose proof (sin2_cos2 b) as Sb. pose proof (sin2_cos2 d) as Sd. unfold Rsqr in *.
  assert (Ee : exp a = exp c).
  { assert (exp a * exp a = exp c * exp c).
    { transitivity ((exp a * cos b) * (exp a * cos b) + (exp a * sin b) * (exp a * sin b)).
      - replace (exp a * exp a) with (exp a * exp a * (sin b * sin b + cos b * cos b)) by (rewrite Sb; ring). ring.
      - rewrite E1, E2. replace (exp c * exp c) with (exp c * exp c * (sin d * sin d + cos d * cos d)) by (rewrite Sd; ring). ring. }
    nra. }
  rewrite Ee in E1, E2. apply Rmult_eq_reg_l in E1; [|lra]. apply Rmult_eq_reg_l in E2; [|lra].
  apply exp_inv in Ee. subst c. f_equal.
  assert (C1 : cos (b - d) = 1) by (rewrite cos_minus, E1, E2; lra).
  assert (C2 : cos ((b - d) / 2) * cos ((b - d) / 2) = 1).
  { replace (b - d) with (2 * ((b - d) / 2)) in C1 by field. rewrite cos_2a_cos in C1. lra. }
  assert (S2 : sin ((b - d) / 2) = 0).
  { pose proof (sin2_cos2 ((b - d) / 2)) as X. unfold Rsqr in X. nra. }
  destruct (Rlt_dec 0 (b - d)) as [P|P].
  - pose proof (sin_gt_0 ((b - d) / 2)). lra.
  - destruct (Rlt_dec (b - d) 0) as [N|N]; [|lra]. pose proof (sin_lt_0_var ((b - d) / 2)). lra.
Qed.
Lemma Carg_up z : 0 < snd z -> 0 < Carg z < PI.
Proof. destruct z as [x y]. simpl. intros H. rewrite Carg_pos by auto. pose proof (atan_bound (x / y)). lra. Qed.
Lemma Carg_down z : snd z < 0 -> - PI < Carg z < 0.
Proof. destruct z as [x y]. simpl. intros H. rewrite Carg_neg by auto. pose proof (atan_bound (x / y)). lra. Qed.

Definition av (s : C) : C := Csqrt (/ s * RtoC 4 + RtoC 1)%C.
Arguments av _%C : simpl never.
Lemma av_sq s : s <> RtoC 0 -> (av s * av s = / s * RtoC 4 + RtoC 1)%C.
Proof. intros. apply Csqrt_sqr. Qed.
Lemma av_pos s : slit s -> 0 < fst (av s).
Proof. intros H. apply Csqrt_re_pos. now apply slit_a2. Qed.
Lemma Cmul_fst z w : fst (z * w)%C = fst z * fst w - snd z * snd w.
Proof. reflexivity. Qed.
Lemma Cmul_snd z w : snd (z * w)%C = fst z * snd w + snd z * fst w.
Proof. reflexivity. Qed.
Lemma Cinv_im s : snd (/ s)%C = - snd s / (fst s * fst s + snd s * snd s).
Proof. destruct s as [x y]. simpl. unfold Rdiv. f_equal. f_equal. ring. Qed.
Lemma norm_pos s : s <> RtoC 0 -> 0 < fst s * fst s + snd s * snd s.
Proof.
  intros H. destruct s as [x y]. simpl. assert (x <> 0 \/ y <> 0) as [K|K].
  { destruct (Req_dec x 0) as [->|]; [|auto]. right. intros ->. now apply H. }
  all: apply Rsqr_pos_lt in K; unfold Rsqr in K; nra.
Qed.
(** The imaginary parts of [av s] and [s] have opposite signs, those of the
    square root of [s] and [s] have the same sign *)
Lemma av_im s : slit s -> exists k, 0 < k /\ snd (av s) = - k * snd s.
Proof.
  intros H. pose proof (slit_neq_0 s H) as Hs. pose proof (av_pos s H) as P. pose proof (f_equal snd (av_sq s Hs)) as E.
  pose proof (norm_pos s Hs) as N. rewrite Cmul_snd in E.
  change (fst (av s) * snd (av s) + snd (av s) * fst (av s) = fst (/ s)%C * 0 + snd (/ s)%C * 4 + 0) in E. rewrite Cinv_im in E.
  exists (2 / (fst (av s) * (fst s * fst s + snd s * snd s))). split.
  - apply Rdiv_lt_0_compat; [lra|]. now apply Rmult_lt_0_compat.
  - apply (Rmult_eq_reg_l (2 * fst (av s))); [|lra]. transitivity (snd (av s) * fst (av s) * 2); [ring|].
    replace (snd (av s) * fst (av s) * 2) with (- snd s / (fst s * fst s + snd s * snd s) * 4) by lra. field. lra.
Qed.
Lemma sqrt_im s : slit s -> exists k, 0 < k /\ snd (Csqrt s) = k * snd s.
Proof.
  intros H. pose proof (Csqrt_re_pos s H) as P. pose proof (f_equal snd (Csqrt_sqr s)) as E. rewrite Cmul_snd in E.
  exists (/ (2 * fst (Csqrt s))). split; [apply Rinv_0_lt_compat; lra|]. apply (Rmult_eq_reg_l (2 * fst (Csqrt s))); [|lra]. transitivity (fst (Csqrt s) * snd (Csqrt s) + snd (Csqrt s) * fst (Csqrt s)); [ring|]. rewrite E. field. lra.
Qed.
Lemma Cmul_0 z w : (z * w)%C = RtoC 0 -> z = RtoC 0 \/ w = RtoC 0.
Proof. intros E. destruct (Ceq_dec z (RtoC 0)) as [K|K]; auto. destruct (Ceq_dec w (RtoC 0)) as [L|L]; auto. exfalso. exact (Cmult_neq_0 z w K L E). Qed.
Lemma sqrt_shift s : slit s -> Csqrt (s + RtoC 4)%C = (av s * Csqrt s)%C.
Proof.
  intros H. pose proof (slit_neq_0 s H) as Hs. pose proof (av_pos s H) as P. pose proof (Csqrt_re_pos s H) as Q.
  destruct (av_im s H) as (k & Hk & E1). destruct (sqrt_im s H) as (l & Hl & E2).
  assert (S4 : slit (s + RtoC 4)%C) by (apply slit_plus_RtoC; [lra|auto]). pose proof (Csqrt_re_pos _ S4) as R.
  assert (V : 0 < fst (av s * Csqrt s)%C).
  { rewrite Cmul_fst, E1, E2. assert (0 < fst (av s) * fst (Csqrt s)) by now apply Rmult_lt_0_compat.
    assert (0 <= (k * l) * (snd s * snd s)); [|nra]. apply Rmult_le_pos; [|apply Rle_0_sqr]. apply Rlt_le, Rmult_lt_0_compat; auto. }
  assert (E : ((Csqrt (s + RtoC 4)%C - av s * Csqrt s) * (Csqrt (s + RtoC 4)%C + av s * Csqrt s) = RtoC 0)%C).
  { transitivity (Csqrt (s + RtoC 4)%C * Csqrt (s + RtoC 4)%C - (av s * av s) * (Csqrt s * Csqrt s))%C; [ring|].
    rewrite !Csqrt_sqr, av_sq by auto. field; auto. }
  apply Cmul_0 in E. destruct E as [E|E].
  - rewrite <- (Cplus_0_l (av s * Csqrt s)%C), <- E. ring.
  - apply (f_equal fst) in E. change (fst (Csqrt (s + RtoC 4)%C) + fst (av s * Csqrt s)%C = 0) in E. lra.
Qed.
Lemma sqrt_ratio s : slit s ->
  ((Csqrt (s + n_ 4) - Csqrt s) / (Csqrt (s + n_ 4) + Csqrt s))%C = ((av s - RtoC 1) / (av s + RtoC 1))%C.
Proof.
  intros H. unfold n_. rewrite sqrt_shift by auto. pose proof (av_pos s H) as P.
  assert (Csqrt s <> RtoC 0). { intros E. pose proof (Csqrt_re_pos s H) as Q. rewrite E in Q. simpl in Q. lra. }
  assert (av s + RtoC 1 <> RtoC 0)%C. { intros E. apply (f_equal fst) in E. change (fst (av s) + 1 = 0) in E. lra. }
  field. split; auto. replace (av s * Csqrt s + Csqrt s)%C with ((av s + RtoC 1) * Csqrt s)%C by ring. now apply Cmult_neq_0.
Qed.
Lemma log_half s : slit s ->
  (Cln ((av s - RtoC 1) / RtoC 2) * RtoC 2 + Cln s)%C = Cln ((av s - RtoC 1) / (av s + RtoC 1))%C.
Proof.
  intros H. pose proof (slit_neq_0 s H) as Hs. pose proof (av_pos s H) as P. pose proof (av_sq s Hs) as Q.
  assert (H1 : (av s + RtoC 1 <> RtoC 0)%C). { intros E. apply (f_equal fst) in E. change (fst (av s) + 1 = 0) in E. lra. }
  destruct (Req_dec (snd s) 0) as [Z|Z].
  - assert (Hx : 0 < fst s) by (destruct H; lra). destruct s as [x y]. simpl in Z, Hx. subst y. change (x, 0) with (RtoC x).
    pose proof (Rinv_0_lt_compat x Hx).
    assert (Ea : av (RtoC x) = RtoC (PVacLim.av x)).
    { unfold av, PVacLim.av. rewrite <- RtoC_inv', <- RtoC_mult, <- RtoC_plus, Csqrt_RtoC by lra. reflexivity. }
    rewrite Ea. pose proof (av_gt_1 x Hx). rewrite <- RtoC_minus, <- RtoC_plus, <- !RtoC_div', !Cln_RtoC by (try lra; apply Rdiv_lt_0_compat; lra).
    rewrite <- RtoC_mult, <- RtoC_plus. f_equal. now apply ln_half.
  - destruct (av_im s H) as (k & Hk & E1).
    assert (I1 : snd ((av s - RtoC 1) / RtoC 2)%C = snd (av s) / 2).
    { unfold Cdiv. rewrite Cmul_snd. simpl. field. }
    assert (I2 : exists k2, 0 < k2 /\ snd ((av s - RtoC 1) / (av s + RtoC 1))%C = k2 * snd (av s)).
    { pose proof (norm_pos _ H1) as N. exists (2 / (fst (av s + RtoC 1)%C * fst (av s + RtoC 1)%C + snd (av s + RtoC 1)%C * snd (av s + RtoC 1)%C)).
      split; [apply Rdiv_lt_0_compat; lra|]. destruct (av s) as [x y]. simpl in *. field. lra. }
    destruct I2 as (k2 & Hk2 & I2).
    assert (Za : snd (av s) <> 0) by (rewrite E1; nra).
    apply Cexp_inj.
    + rewrite Cexp_add. replace (Cln ((av s - RtoC 1) / RtoC 2) * RtoC 2)%C with (Cln ((av s - RtoC 1) / RtoC 2) + Cln ((av s - RtoC 1) / RtoC 2))%C by ring.
      rewrite Cexp_add, !Cexp_Cln; [|rewrite I2; nra|auto|rewrite I1; lra].
      assert (K : (s * (av s * av s - RtoC 1) = RtoC 4)%C) by (rewrite Q; field; auto).
      assert (T2 : RtoC 2 <> RtoC 0) by (apply RtoC_neq0; lra).
      transitivity ((av s - RtoC 1) * (s * (av s * av s - RtoC 1)) / (RtoC 4 * (av s + RtoC 1)))%C.
      * replace (RtoC 4) with (RtoC 2 * RtoC 2)%C by (rewrite <- RtoC_mult; f_equal; lra). field. auto.
      * rewrite K. field; repeat split; auto; apply RtoC_neq0; lra.
    + replace (snd (Cln ((av s - RtoC 1) / RtoC 2) * RtoC 2 + Cln s)%C) with (Carg ((av s - RtoC 1) / RtoC 2)%C * 2 + Carg s) by (unfold Cln; simpl; ring).
      change (snd (Cln ((av s - RtoC 1) / (av s + RtoC 1))%C)) with (Carg ((av s - RtoC 1) / (av s + RtoC 1))%C).
      destruct (Rlt_dec 0 (snd s)) as [U|U].
      * pose proof (Carg_up s U). pose proof (Carg_down ((av s - RtoC 1) / RtoC 2)%C). pose proof (Carg_down ((av s - RtoC 1) / (av s + RtoC 1))%C).
        rewrite I1 in *. rewrite I2 in *. nra.
      * assert (U' : snd s < 0) by lra. pose proof (Carg_down s U'). pose proof (Carg_up ((av s - RtoC 1) / RtoC 2)%C). pose proof (Carg_up ((av s - RtoC 1) / (av s + RtoC 1))%C).
        rewrite I1 in *. rewrite I2 in *. nra.
Qed.

(** ** The functions *)
Ltac vac s H := pose proof (slit_neq_0 s H) as Hs; pose proof (av_pos s H) as Hp; pose proof (av_sq s Hs) as Q;
  assert (H1 : (av s + RtoC 1 <> RtoC 0)%C) by (intros E; apply (f_equal fst) in E; change (fst (av s) + 1 = 0) in E; lra);
  assert (H0 : av s <> RtoC 0) by (intros E; rewrite E in Hp; simpl in Hp; lra);
  assert (Ha : forall z, z = (/ s * RtoC 4 + RtoC 1)%C -> Csqrt z = av s) by (intros z ->; reflexivity).
Ltac nz := repeat split; auto; try (apply RtoC_neq0; lra).
Ltac npy := unfold n_, jj, npi2, sq, cu.
Lemma vac_g s : slit s -> gh_g s = (py_g s / RtoC 12)%C.
Proof. intros H. vac s H. unfold py_g. low_unfold. npy. numcbn. rewrite (Cplus_comm (RtoC 1) s). field. nz. Qed.
Lemma vac_f s : slit s -> gl_f s = py_f s.
Proof.
  intros H. vac s H. unfold py_f. rewrite sqrt_ratio by auto. rewrite <- log_half by auto. low_unfold. npy. numcbn.
  rewrite !Ha by (field; auto). fold (av s). rewrite (Cplus_comm (RtoC 1) s). field. nz.
Qed.
Lemma vac_f_xi s : slit s -> gl_f_xi s = py_f_xi s.
Proof. intros H. vac s H. unfold py_f_xi. low_unfold. npy. numcbn. rewrite (Cplus_comm (RtoC 1) s). field. nz. Qed.
Lemma vac_f_q s : slit s -> gl_f_q s = py_f_q s.
Proof.
  intros H. vac s H. unfold py_f_q. rewrite sqrt_ratio by auto. low_unfold. npy. numcbn. rewrite !Ha by (field; auto). fold (av s).
  generalize (Cln ((av s - RtoC 1) / (av s + RtoC 1))%C). intros l. pushRtoC. field. nz.
Qed.
Lemma vac_f_q_crossed s : slit s -> gl_f_q_crossed s = py_f_q_crossed s.
Proof.
  intros H. vac s H. unfold py_f_q_crossed. rewrite sqrt_ratio by auto. low_unfold. npy. numcbn. rewrite !Ha by (field; auto). fold (av s).
  generalize (Cln ((av s - RtoC 1) / (av s + RtoC 1))%C). intros l.
  assert (S4 : (s + RtoC 4)%C <> RtoC 0) by (apply slit_neq_0, slit_plus_RtoC; [lra|auto]).
  assert (K : (/ av s)%C = (av s * s / (s + RtoC 4))%C).
  { assert (Q2 : (av s * av s * s = s + RtoC 4)%C) by (rewrite Q; field; auto).
    transitivity (av s * av s * s / (av s * (s + RtoC 4)))%C; [rewrite Q2; field; nz|field; nz]. }
  unfold Cdiv. rewrite K. rewrite (Cplus_comm (RtoC 4) s). pushRtoC. field. nz.
Qed.
