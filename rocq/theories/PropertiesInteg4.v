(** * Property C34: the zero-momentum integrands are limits of the general ones

    [at_right 0] is the filter p -> 0+.  [off_resonance q om m1 m2] says that
    the integrands with masses m1, m2 have no pole at p = 0; it always holds for
    real om <> 0, real masses and q > 0. *)
From Coq Require Import Reals List Lra Lia.
From Coquelicot Require Import Coquelicot.
From Verif Require Import Num CField MCommon MThermal MThermalZM MThermalZP MPolar SpecLim SpecInteg SpecZMom PZMom4.
Import List ListNotations.
Open Scope R_scope.

Theorem C34_bubbles_real : forall (q om beta m1 m2 m : R), 0 < q -> om <> 0 -> forall n,
  tendsC (at_right 0) (fun p => nth n (bubbles_mm q om p m1 m2 beta) (RtoC 0)) (nth n (zp_bubbles_mm q om m1 m2 beta) (RtoC 0)) /\
  tendsC (at_right 0) (fun p => nth n (bubbles_same q om p m beta) (RtoC 0)) (nth n (zp_bubbles_same q om m beta) (RtoC 0)) /\
  tendsC (at_right 0) (fun p => nth n (bubbles_m0 q om p m beta) (RtoC 0)) (nth n (zp_bubbles_m0 q om m beta) (RtoC 0)) /\
  tendsC (at_right 0) (fun p => nth n (bubbles_0 q om p beta) (RtoC 0)) (nth n (zp_bubbles_0 q om beta) (RtoC 0)).
Proof. exact lims_R. Qed.
Print Assumptions C34_bubbles_real.

Theorem C34_bubbles_complex : forall (q : R) (om : C) (beta : R), 0 < q -> om <> RtoC 0 -> forall n,
  (forall m1 m2 : C, off_resonance q om m1 m2 ->
    tendsC (at_right 0) (fun p => nth n (bubbles_mm q om p m1 m2 beta) (RtoC 0)) (nth n (zp_bubbles_mm q om m1 m2 beta) (RtoC 0))) /\
  (forall m : C, off_resonance q om m m ->
    tendsC (at_right 0) (fun p => nth n (bubbles_same q om p m beta) (RtoC 0)) (nth n (zp_bubbles_same q om m beta) (RtoC 0))) /\
  (forall m : C, off_resonance q om m (RtoC 0) ->
    tendsC (at_right 0) (fun p => nth n (bubbles_m0 q om p m beta) (RtoC 0)) (nth n (zp_bubbles_m0 q om m beta) (RtoC 0))) /\
  (off_resonance q om (RtoC 0) (RtoC 0) ->
    tendsC (at_right 0) (fun p => nth n (bubbles_0 q om p beta) (RtoC 0)) (nth n (zp_bubbles_0 q om beta) (RtoC 0))).
Proof. exact lims_C. Qed.
Print Assumptions C34_bubbles_complex.

Theorem C34_glue_real : forall (q om beta m : R), 0 < q -> om <> 0 -> forall n,
  tendsC (at_right 0) (fun p => nth n (glue_parts q om p m beta) (RtoC 0)) (nth n (zp_glue_parts q om m beta) (RtoC 0)).
Proof. exact (fun q om beta m Hq Ho n => lim_glue_R q om beta Hq Ho m n). Qed.
Print Assumptions C34_glue_real.

Theorem C34_glue_complex : forall (q : R) (om : C) (beta m : R), 0 < q -> om <> RtoC 0 ->
  off_resonance q om (RtoC m) (RtoC m) -> off_resonance q om (RtoC m) (RtoC 0) -> off_resonance q om (RtoC 0) (RtoC 0) -> forall n,
  tendsC (at_right 0) (fun p => nth n (glue_parts q om p m beta) (RtoC 0)) (nth n (zp_glue_parts q om m beta) (RtoC 0)).
Proof. exact (fun q om beta m Hq Ho => glue_lim q om beta Hq Ho m). Qed.
Print Assumptions C34_glue_complex.

Theorem C34_quark_real : forall (q om beta : R) (nc : nat) (mq mu : R), 0 < q -> om <> 0 -> (0 < nc)%nat -> forall n,
  tendsC (at_right 0) (fun p => nth n (quark_parts nc q om p mq beta mu) (RtoC 0)) (nth n (zp_quark_parts nc q om mq beta mu) (RtoC 0)) /\
  tendsC (at_right 0) (fun p => nth n (quark_parts_zero_temp nc q om p mq mu) (RtoC 0)) (nth n (zp_quark_parts_zero_temp nc q om mq mu) (RtoC 0)).
Proof. exact (fun q om beta nc mq mu Hq Ho Hn n => lim_quark_R q om beta Hq Ho nc mq mu n Hn). Qed.
Print Assumptions C34_quark_real.

Theorem C34_quark_complex : forall (q : R) (om : C) (beta : R) (nc : nat) (mq mu : R), 0 < q -> om <> RtoC 0 -> (0 < nc)%nat ->
  off_resonance q om (RtoC mq) (RtoC mq) -> forall n,
  tendsC (at_right 0) (fun p => nth n (quark_parts nc q om p mq beta mu) (RtoC 0)) (nth n (zp_quark_parts nc q om mq beta mu) (RtoC 0)) /\
  tendsC (at_right 0) (fun p => nth n (quark_parts_zero_temp nc q om p mq mu) (RtoC 0)) (nth n (zp_quark_parts_zero_temp nc q om mq mu) (RtoC 0)).
Proof. exact (fun q om beta nc mq mu Hq Ho Hn H => quark_lim q om beta Hq Ho nc mq mu Hn H). Qed.
Print Assumptions C34_quark_complex.

Theorem C34_off_resonance_real : forall q om m1 m2 : R, 0 < q -> om <> 0 -> off_resonance q (RtoC om) (RtoC m1) (RtoC m2).
Proof. exact off_R. Qed.
Print Assumptions C34_off_resonance_real.

(** Longitudinal and transverse projections merge for p -> 0+. *)
Theorem C34_projections_merge : forall (q om beta m1 m2 m : R), 0 < q -> om <> 0 ->
  tendsC (at_right 0) (fun p => i_m_m_l_i q om p m1 m2 beta - i_m_m_t_i q om p m1 m2 beta)%C (RtoC 0) /\
  tendsC (at_right 0) (fun p => d_i_m_m_l_i q om p m1 m2 beta - d_i_m_m_t_i q om p m1 m2 beta)%C (RtoC 0) /\
  tendsC (at_right 0) (fun p => polarization_glue_l_thermal_part_landau_i q om p m beta - polarization_glue_t_thermal_part_landau_i q om p m beta)%C (RtoC 0).
Proof. exact lt_agree. Qed.
Print Assumptions C34_projections_merge.

Theorem C34_quark_projections_merge : forall (q om beta : R) (nc : nat) (mq mu : R), 0 < q -> om <> 0 -> (0 < nc)%nat ->
  tendsC (at_right 0) (fun p => polarization_quark_l_thermal_part_landau_i nc q om p mq beta mu - polarization_quark_t_thermal_part_landau_i nc q om p mq beta mu)%C (RtoC 0) /\
  tendsC (at_right 0) (fun p => polarization_quark_l_thermal_part_zero_temp_landau_i nc q om p mq mu - polarization_quark_t_thermal_part_zero_temp_landau_i nc q om p mq mu)%C (RtoC 0).
Proof. exact lt_agree_quark. Qed.
Print Assumptions C34_quark_projections_merge.

Example C34_example : zp_i_0_0_i 1 (1 : R) 1 = RtoC (1 / (5 * (PI * PI) * (exp 1 - 1))) /\
  tendsC (at_right 0) (fun p => i_0_0_i 1 (1 : R) p 1) (RtoC (1 / (5 * (PI * PI) * (exp 1 - 1)))).
Proof. exact (conj ex_zp_val ex_zp). Qed.
