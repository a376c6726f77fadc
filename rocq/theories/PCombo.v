(** * Ghost self-energy and glue polarization as combinations of bubbles and tadpoles *)
From Coq Require Import Reals Lra List.
From Coquelicot Require Import Coquelicot.
From Verif Require Import Num CField MCommon MThermal MThermalZM MThermalZP MPolar SpecInteg PCplx PDistr PVac PDress2 PCoh PCoh2 PLogs PMass PMassZ PMass2 PReal.
Import List ListNotations.
Open Scope R_scope.

(** [im2] stands for the inverse of m^2. *)
Definition GHc (s m2 im2 im0 i00 di jm j0 dj : C) : C :=
  (- (s - m2) / RtoC 4 * dj + (RtoC 2 * s - m2) * (im2 / RtoC 4) * (jm - j0)
   + - (s + m2) * s * (im2 / RtoC 2) * im0 + s * s * (im2 / RtoC 2) * i00 + (s + m2) * (s + m2) / RtoC 4 * di)%C.
Definition GPc (s m2 im2 x00 xs x0 is i0 dxs dx0 ds d0 jm j0 dj d2j Jm J0 dJ d2J : C) : C :=
  ((RtoC 3 * s * s * (im2 * im2 / RtoC 2) - RtoC 1) * x00
   + ((RtoC 3 * s * s + RtoC 8 * s * m2 + RtoC 4 * m2 * m2) * (im2 * im2 / RtoC 2) + RtoC 4) * xs
   - (RtoC 3 * s * s + RtoC 4 * s * m2 + m2 * m2) * (im2 * im2) * x0
   + RtoC 2 * (s + RtoC 2 * m2) * s * im2 * is - RtoC 2 * (s + m2) * s * im2 * i0
   - (RtoC 2 * s + RtoC 3 * m2) * im2 * jm + (RtoC 2 * s + m2) * im2 * j0
   - ((s + RtoC 2 * m2) * (s + RtoC 2 * m2) * im2 + RtoC 8 * m2) * dxs + (s + m2) * (s + m2) * im2 * dx0
   - RtoC 2 * s * (s + RtoC 4 * m2) * ds + (s + m2) * (s + m2) * d0
   + (s + RtoC 3 * m2) * dj - m2 * m2 * d2j + (Jm - J0) * im2 + (- dJ + d2J * m2 / RtoC 2))%C.

(** The weighted tadpole entering the longitudinal projection. *)
Definition TLc (om2 p2 is jt jl : C) : C := (is * (om2 * jt + p2 * jl))%C.

Section Combo.
Variables (q : R) (om : C) (p m beta : R).
Notation m2 := (RtoC m * RtoC m)%C.
Notation im2 := (/ RtoC m * / RtoC m)%C.
Definition sC : C := (om * om + RtoC p * RtoC p)%C.

Ltac gen := repeat match goal with
  | |- context [RtoC (?f q m beta)] => generalize (RtoC (f q m beta)); intros
  | |- context [RtoC (?f q p m beta)] => generalize (RtoC (f q p m beta)); intros
  | |- context [RtoC (?f q p beta)] => generalize (RtoC (f q p beta)); intros
  | |- context [RtoC (?f q beta)] => generalize (RtoC (f q beta)); intros
  end.
Ltac fields := numcbn; pushRtoC; rewrite ?RtoC_inv_all, ?RtoC_div'; pushRtoC; unfold Cdiv; rewrite ?Cinv_mult;
  match goal with |- context [(/ (om * om + RtoC p * RtoC p))%C] => generalize (/ (om * om + RtoC p * RtoC p))%C; intros is | |- _ => idtac end;
  match goal with |- context [(/ RtoC m)%C] => generalize (/ RtoC m)%C; intros im | |- _ => idtac end.

Lemma ghost_combo : ghost_self_energy_thermal_part_landau_i q om p m beta =
  GHc sC m2 im2 (i_m_0_i q om p m beta) (i_0_0_i q om p beta) (d_i_m_0_i q om p m beta) (RtoC (j_m_i q m beta)) (RtoC (j_0_i q beta)) (RtoC (d_j_m_i q m beta)).
Proof. unfold ghost_self_energy_thermal_part_landau_i, GHc, sC. fields. gen. field; repeat split; apply RtoC_neq0; lra. Qed.
Lemma glue_l_combo : polarization_glue_l_thermal_part_landau_i q om p m beta =
  GPc sC m2 im2 (i_0_0_l_i q om p beta) (i_m_m_l_i_same_mass q om p m beta) (i_m_0_l_i q om p m beta) (i_m_m_i_same_mass q om p m beta) (i_m_0_i q om p m beta) (d_i_m_m_l_i_same_mass q om p m beta) (d_i_m_0_l_i q om p m beta) (d_i_m_m_i_same_mass q om p m beta) (d_i_m_0_i q om p m beta)
    (RtoC (j_m_i q m beta)) (RtoC (j_0_i q beta)) (RtoC (d_j_m_i q m beta)) (RtoC (d2_j_m_i q m beta))
    (TLc (om * om)%C (RtoC p * RtoC p)%C (/ sC)%C (RtoC (j_m_t_i q m beta)) (RtoC (j_m_l_i q m beta))) (TLc (om * om)%C (RtoC p * RtoC p)%C (/ sC)%C (RtoC (j_0_t_i q beta)) (RtoC (j_0_l_i q beta))) (TLc (om * om)%C (RtoC p * RtoC p)%C (/ sC)%C (RtoC (d_j_m_t_i q m beta)) (RtoC (d_j_m_l_i q m beta))) (TLc (om * om)%C (RtoC p * RtoC p)%C (/ sC)%C (RtoC (d2_j_m_t_i q m beta)) (RtoC (d2_j_m_l_i q m beta))).
Proof. unfold polarization_glue_l_thermal_part_landau_i, GPc, TLc, sC. fields. gen. field; repeat split; apply RtoC_neq0; lra. Qed.
Lemma glue_t_combo : polarization_glue_t_thermal_part_landau_i q om p m beta =
  GPc sC m2 im2 (i_0_0_t_i q om p beta) (i_m_m_t_i_same_mass q om p m beta) (i_m_0_t_i q om p m beta) (i_m_m_i_same_mass q om p m beta) (i_m_0_i q om p m beta) (d_i_m_m_t_i_same_mass q om p m beta) (d_i_m_0_t_i q om p m beta) (d_i_m_m_i_same_mass q om p m beta) (d_i_m_0_i q om p m beta)
    (RtoC (j_m_i q m beta)) (RtoC (j_0_i q beta)) (RtoC (d_j_m_i q m beta)) (RtoC (d2_j_m_i q m beta))
    (RtoC (j_m_t_i q m beta)) (RtoC (j_0_t_i q beta)) (RtoC (d_j_m_t_i q m beta)) (RtoC (d2_j_m_t_i q m beta)).
Proof. unfold polarization_glue_t_thermal_part_landau_i, GPc, TLc, sC. fields. gen. field; repeat split; apply RtoC_neq0; lra. Qed.
Lemma zm_ghost_combo : zm_ghost_self_energy_thermal_part_landau_i q p m beta =
  GHc (RtoC p * RtoC p)%C m2 im2 (zm_i_m_0_i q p m beta) (RtoC (zm_i_0_0_i q p beta)) (RtoC (zm_d_i_m_0_i q p m beta)) (RtoC (j_m_i q m beta)) (RtoC (j_0_i q beta)) (RtoC (d_j_m_i q m beta)).
Proof. unfold zm_ghost_self_energy_thermal_part_landau_i, GHc, sC. fields. gen. field; repeat split; apply RtoC_neq0; lra. Qed.
Lemma zm_glue_l_combo : zm_polarization_glue_l_thermal_part_landau_i q p m beta =
  GPc (RtoC p * RtoC p)%C m2 im2 (RtoC (zm_i_0_0_l_i q p beta)) (RtoC (zm_i_m_m_l_i_same_mass q p m beta)) (zm_i_m_0_l_i q p m beta) (RtoC (zm_i_m_m_i_same_mass q p m beta)) (zm_i_m_0_i q p m beta) (RtoC (zm_d_i_m_m_l_i_same_mass q p m beta)) (RtoC (zm_d_i_m_0_l_i q p m beta)) (RtoC (zm_d_i_m_m_i_same_mass q p m beta)) (RtoC (zm_d_i_m_0_i q p m beta))
    (RtoC (j_m_i q m beta)) (RtoC (j_0_i q beta)) (RtoC (d_j_m_i q m beta)) (RtoC (d2_j_m_i q m beta))
    (RtoC (j_m_l_i q m beta)) (RtoC (j_0_l_i q beta)) (RtoC (d_j_m_l_i q m beta)) (RtoC (d2_j_m_l_i q m beta)).
Proof. unfold zm_polarization_glue_l_thermal_part_landau_i, GPc, TLc, sC. fields. gen. field; repeat split; apply RtoC_neq0; lra. Qed.
Lemma zm_glue_t_combo : zm_polarization_glue_t_thermal_part_landau_i q p m beta =
  GPc (RtoC p * RtoC p)%C m2 im2 (RtoC (zm_i_0_0_t_i q p beta)) (RtoC (zm_i_m_m_t_i_same_mass q p m beta)) (zm_i_m_0_t_i q p m beta) (RtoC (zm_i_m_m_i_same_mass q p m beta)) (zm_i_m_0_i q p m beta) (RtoC (zm_d_i_m_m_t_i_same_mass q p m beta)) (zm_d_i_m_0_t_i q p m beta) (RtoC (zm_d_i_m_m_i_same_mass q p m beta)) (RtoC (zm_d_i_m_0_i q p m beta))
    (RtoC (j_m_i q m beta)) (RtoC (j_0_i q beta)) (RtoC (d_j_m_i q m beta)) (RtoC (d2_j_m_i q m beta))
    (RtoC (j_m_t_i q m beta)) (RtoC (j_0_t_i q beta)) (RtoC (d_j_m_t_i q m beta)) (RtoC (d2_j_m_t_i q m beta)).
Proof. unfold zm_polarization_glue_t_thermal_part_landau_i, GPc, TLc, sC. fields. gen. field; repeat split; apply RtoC_neq0; lra. Qed.
Lemma zp_ghost_combo : zp_ghost_self_energy_thermal_part_landau_i q om m beta =
  GHc (om * om)%C m2 im2 (zp_i_m_0_i q om m beta) (zp_i_0_0_i q om beta) (zp_d_i_m_0_i q om m beta) (RtoC (j_m_i q m beta)) (RtoC (j_0_i q beta)) (RtoC (d_j_m_i q m beta)).
Proof. unfold zp_ghost_self_energy_thermal_part_landau_i, GHc, sC. fields. gen. field; repeat split; apply RtoC_neq0; lra. Qed.
Lemma zp_glue_l_combo : zp_polarization_glue_l_thermal_part_landau_i q om m beta =
  GPc (om * om)%C m2 im2 (zp_i_0_0_l_i q om beta) (zp_i_m_m_l_i_same_mass q om m beta) (zp_i_m_0_l_i q om m beta) (zp_i_m_m_i_same_mass q om m beta) (zp_i_m_0_i q om m beta) (zp_d_i_m_m_l_i_same_mass q om m beta) (zp_d_i_m_0_l_i q om m beta) (zp_d_i_m_m_i_same_mass q om m beta) (zp_d_i_m_0_i q om m beta)
    (RtoC (j_m_i q m beta)) (RtoC (j_0_i q beta)) (RtoC (d_j_m_i q m beta)) (RtoC (d2_j_m_i q m beta))
    (RtoC (j_m_t_i q m beta)) (RtoC (j_0_t_i q beta)) (RtoC (d_j_m_t_i q m beta)) (RtoC (d2_j_m_t_i q m beta)).
Proof. unfold zp_polarization_glue_l_thermal_part_landau_i, GPc, TLc, sC. fields. gen. field; repeat split; apply RtoC_neq0; lra. Qed.
Lemma zp_glue_t_combo : zp_polarization_glue_t_thermal_part_landau_i q om m beta =
  GPc (om * om)%C m2 im2 (zp_i_0_0_t_i q om beta) (zp_i_m_m_t_i_same_mass q om m beta) (zp_i_m_0_t_i q om m beta) (zp_i_m_m_i_same_mass q om m beta) (zp_i_m_0_i q om m beta) (zp_d_i_m_m_t_i_same_mass q om m beta) (zp_d_i_m_0_t_i q om m beta) (zp_d_i_m_m_i_same_mass q om m beta) (zp_d_i_m_0_i q om m beta)
    (RtoC (j_m_i q m beta)) (RtoC (j_0_i q beta)) (RtoC (d_j_m_i q m beta)) (RtoC (d2_j_m_i q m beta))
    (RtoC (j_m_t_i q m beta)) (RtoC (j_0_t_i q beta)) (RtoC (d_j_m_t_i q m beta)) (RtoC (d2_j_m_t_i q m beta)).
Proof. exact zp_glue_l_combo. Qed.
End Combo.
