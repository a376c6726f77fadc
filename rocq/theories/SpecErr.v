(** * Vocabulary for the propagation of quadrature errors *)
From Coq Require Import Reals List.
From Coquelicot Require Import Coquelicot.
From Verif Require Import Num MConsts MVacuum MThermal MPolar MDress MUtils MTc MPhase SpecInt.
Import List ListNotations.
Open Scope R_scope.

(** The sum of the sizes of the weights of a weighted sum. *)
Definition weight {A : Type} (l : list (R * A)) : R := fold_right (fun x acc => Rabs (fst x) + acc) 0 l.

(** The number of flavours of a list of quarks. *)
Definition flavours (quarks : list (nat * R)) : R := fold_right (fun q acc => INR (fst q) + acc) 0 quarks.

(** A routine that integrates [f] from [a] to [b] with an error of at most [eps]. *)
Definition accurate (eps : R) (J : Integrator) (f : R -> C) (a b : R) : Prop :=
  forall I v, is_RInt (V := C_R_NormedModule) f a b v -> Cmod (integrateC J f a b I - v) <= eps.

(** ... the integrals of the gluon propagators of a field configuration at temperature [1/beta] *)
Definition accurate_thermal (eps : R) (J : Integrator) (g : globals R) (om p : R) (m : R) (quarks : list (nat * R)) (beta mu : R) : Prop :=
  accurate eps J (compact_C (fun q => polarization_glue_l_thermal_part_landau_i q om p m beta)) 0 1 /\
  accurate eps J (compact_C (fun q => polarization_glue_t_thermal_part_landau_i q om p m beta)) 0 1 /\
  forall n mq, In (n, mq) quarks ->
    accurate eps J (compact_C (fun q => polarization_quark_l_thermal_part_landau_i (g_nc g) q om p mq beta mu)) 0 1 /\
    accurate eps J (compact_C (fun q => polarization_quark_t_thermal_part_landau_i (g_nc g) q om p mq beta mu)) 0 1.

(** ... at zero temperature: from zero to the Fermi momentum of each quark that has a Fermi sea *)
Definition accurate_zero_temp (eps : R) (J : Integrator) (g : globals R) (om p : R) (quarks : list (nat * R)) (mu : R) : Prop :=
  forall n mq, In (n, mq) quarks -> Rabs mq <= Rabs mu ->
    accurate eps J (fun q => polarization_quark_l_thermal_part_zero_temp_landau_i (g_nc g) q om p mq mu) 0 (sqrt (mu * mu - mq * mq)) /\
    accurate eps J (fun q => polarization_quark_t_thermal_part_zero_temp_landau_i (g_nc g) q om p mq mu) 0 (sqrt (mu * mu - mq * mq)).

(** ... for everything that a run evaluates: all chemical potentials and temperatures of its grids,
    with the field configuration in use there, at the momenta [ps] *)
Definition accurate_run (eps : R) (J : Integrator) (g : globals R) (c : Config) (ps : list R) : Prop :=
  forall mu p, In mu (cfg_chempots c) -> In p ps ->
    (forall fc f0, maybe_corrected_data c mu 0 = Ret (fc, f0) -> accurate_zero_temp eps J g (cfg_om c) p (fc_quarks fc) mu) /\
    (forall t fc f0, In t (skipn 1 (cfg_temps c)) -> maybe_corrected_data c mu t = Ret (fc, f0) ->
       accurate_thermal eps J g (cfg_om c) p (fc_gluon fc) (fc_quarks fc) (1 / (t * fc_gluon (cfg_fieldconfig c))) mu).

(** The momenta of the infrared data: the smallest one and the renormalisation point. *)
Definition ir_momenta (c : Config) : list R := [cfg_renpoint c; cfg_pbase c * fc_gluon (cfg_fieldconfig c)].
(** The momenta of the curves. *)
Definition curve_momenta (c : Config) : list R :=
  cfg_renpoint c :: map (fun p => p * fc_gluon (cfg_fieldconfig c)) (cfg_momenta c).

(** A configuration with sensible kinematics. *)
Definition sensible (c : Config) : Prop :=
  cfg_om c <> 0 /\ 0 < cfg_renpoint c /\ 0 < cfg_pbase c /\ 0 < fc_gluon (cfg_fieldconfig c) /\
  Forall (fun t => 0 < t) (skipn 1 (cfg_temps c)) /\ Forall (fun p => 0 < p) (cfg_momenta c) /\
  forall mu t fc f0, maybe_corrected_data c mu t = Ret (fc, f0) ->
    exists nc m quarks, m <> 0 /\ fc = FieldConfig_new nc m quarks.

(** The propagators of a run have no pole, and their real part does not vanish at the
    renormalisation point: [I0] and [I] are the inverse dressing functions at zero and at finite
    temperature, [P0] and [P] the propagators. *)
Definition pole_free (I0 : R -> R -> R -> R -> FieldConfig -> C) (I : R -> R -> R -> R -> R -> FieldConfig -> C)
    (P0 : R -> R -> R -> R -> FieldConfig -> C) (P : R -> R -> R -> R -> R -> FieldConfig -> C) (c : Config) (ps : list R) : Prop :=
  forall mu p, In mu (cfg_chempots c) -> In p ps ->
    (forall fc f0, maybe_corrected_data c mu 0 = Ret (fc, f0) ->
       I0 (cfg_om c) p mu f0 fc <> RtoC 0 /\ Re (P0 (cfg_om c) (cfg_renpoint c) mu f0 fc) * renfac c <> 0) /\
    (forall t fc f0, In t (skipn 1 (cfg_temps c)) -> maybe_corrected_data c mu t = Ret (fc, f0) ->
       let beta := 1 / (t * fc_gluon (cfg_fieldconfig c)) in
       I (cfg_om c) p beta mu f0 fc <> RtoC 0 /\ Re (P (cfg_om c) (cfg_renpoint c) beta mu f0 fc) * renfac c <> 0).
Definition pole_free_l (K : Integrator) (g : globals R) : Config -> list R -> Prop :=
  pole_free (fun om p mu f0 fc => qcd_gluon_dressing_l_inv_zero_temp_w_field_config K g om p mu f0 fc)
    (fun om p beta mu f0 fc => qcd_gluon_dressing_l_inv_w_field_config K g om p beta mu f0 fc) (prop_l0 K g) (prop_l K g).
Definition pole_free_t (K : Integrator) (g : globals R) : Config -> list R -> Prop :=
  pole_free (fun om p mu f0 fc => qcd_gluon_dressing_t_inv_zero_temp_w_field_config K g om p mu f0 fc)
    (fun om p beta mu f0 fc => qcd_gluon_dressing_t_inv_w_field_config K g om p beta mu f0 fc) (prop_t0 K g) (prop_t K g).

(** Two results that agree up to [d]. *)
Definition within (d : R) (x y : outcome (list R)) : Prop :=
  match x, y with
  | Ret l, Ret l' => Forall2 (fun a b => Rabs (a - b) <= d) l l'
  | Panic, Panic => True
  | _, _ => False
  end.

(** [t] is a temperature at which the data are at most [d] below their maximum. *)
Definition near_maximum (d : R) (ts vs : list R) (t : R) : Prop :=
  exists i v, nth_error ts i = Some t /\ nth_error vs i = Some v /\
    forall j tj w, nth_error ts j = Some tj -> nth_error vs j = Some w -> w - d <= v.

(** The maximum is attained at [t] only, and by more than [d]. *)
Definition clear_maximum (d : R) (ts vs : list R) (t : R) : Prop :=
  exists i v, nth_error ts i = Some t /\ nth_error vs i = Some v /\
    forall j tj w, nth_error ts j = Some tj -> nth_error vs j = Some w -> j <> i -> w + d < v.
