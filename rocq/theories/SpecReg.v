(** * Zero-Matsubara polarizations: integrated value, regulated integrand, documented integrand (C41) *)
From Coq Require Import Reals List.
From Coquelicot Require Import Coquelicot.
From Verif Require Import Num MCommon MConsts MThermal MThermalZM MThermalZP MPolar MDress.
Import List ListNotations.
Open Scope R_scope.

(** (integrated value, integrand at regulator [r] and momentum [q], documented integrand) *)
Definition regulated : Type := ((Integrator -> globals R -> Integral R -> R) * (R -> R -> R) * (R -> R))%type.

Definition regulated_glue (p m beta : R) : list regulated :=
  [ ((fun J g I => zm_polarization_glue_l_thermal_part_landau_w_method J g p m beta I),
     (fun r q => fst (polarization_glue_l_thermal_part_landau_i q r p m beta)), (fun q => fst (zm_polarization_glue_l_thermal_part_landau_i q p m beta)));
    ((fun J g I => zm_polarization_glue_t_thermal_part_landau_w_method J g p m beta I),
     (fun r q => fst (polarization_glue_t_thermal_part_landau_i q r p m beta)), (fun q => fst (zm_polarization_glue_t_thermal_part_landau_i q p m beta))) ].

Definition regulated_quark (nc : nat) (p mq beta mu : R) : list regulated :=
  [ ((fun J g I => zm_polarization_quark_l_thermal_part_landau_w_method J g p mq beta mu I),
     (fun r q => fst (polarization_quark_l_thermal_part_landau_i nc q r p mq beta mu)), (fun q => zm_polarization_quark_l_thermal_part_landau_i nc q p mq beta mu));
    ((fun J g I => zm_polarization_quark_t_thermal_part_landau_w_method J g p mq beta mu I),
     (fun r q => fst (polarization_quark_t_thermal_part_landau_i nc q r p mq beta mu)), (fun q => zm_polarization_quark_t_thermal_part_landau_i nc q p mq beta mu)) ].

Definition regulated_quark_zero_temp (nc : nat) (p mq mu : R) : list regulated :=
  [ ((fun J g I => zm_polarization_quark_l_thermal_part_zero_temp_landau_w_method J g p mq mu I),
     (fun r q => fst (polarization_quark_l_thermal_part_zero_temp_landau_i nc q r p mq mu)), (fun q => zm_polarization_quark_l_thermal_part_zero_temp_landau_i nc q p mq mu));
    ((fun J g I => zm_polarization_quark_t_thermal_part_zero_temp_landau_w_method J g p mq mu I),
     (fun r q => fst (polarization_quark_t_thermal_part_zero_temp_landau_i nc q r p mq mu)), (fun q => zm_polarization_quark_t_thermal_part_zero_temp_landau_i nc q p mq mu)) ].
