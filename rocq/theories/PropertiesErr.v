(** * Propagation of quadrature errors: C93 *)
From Coq Require Import Reals List.
From Coquelicot Require Import Coquelicot.
From Verif Require Import Num CField MConsts MVacuum MThermal MPolar MDress MUtils MTc MPhase SpecInt SpecDress SpecTc SpecErr PCfg PExTherm PErr PErr2 PErr3 PErr4 PExErr.
Import List ListNotations.
Open Scope R_scope.

(** C93. Each integrated thermal part is as wrong as the integration routine. *)
Theorem C93_integrals : forall J g p m mq beta mu I,
  (forall om : R, Forall (fun x : C * (R -> C) * Integral R => let '(v, f, _) := x in forall eps u,
     accurate eps J (compact_C f) 0 1 -> is_RInt (V := C_R_NormedModule) (compact_C f) 0 1 u -> Cmod (v - u) <= eps)
     (half_line_integrals_C J g om p m mq beta mu I)) /\
  (forall om : C, Forall (fun x : C * (R -> C) * Integral R => let '(v, f, _) := x in forall eps u,
     accurate eps J (compact_C f) 0 1 -> is_RInt (V := C_R_NormedModule) (compact_C f) 0 1 u -> Cmod (v - u) <= eps)
     (half_line_integrals_C J g om p m mq beta mu I)).
Proof. exact (fun J g p m mq beta mu I => conj (fun om => integrals_close J g om p m mq beta mu I) (fun om => integrals_close J g om p m mq beta mu I)). Qed.
Print Assumptions C93_integrals.

(** Two routines whose thermal parts differ by at most [eps] give inverse dressing functions that
    differ by at most (16 pi^2/3)/|om^2+p^2| times the sum of the weights times [eps]. *)
Theorem C93_inverse_dressings : forall J K g nc m mq beta mu g0 f0 quarks,
  (forall (om : R) p, om * om + p * p <> 0 -> Forall2 (fun x y : R * list (R * C) * C * C => let '(_, lx, ix, _) := x in let '(_, ly, iy, _) := y in
       forall eps, Forall2 (fun a b : R * C => Cmod (snd a - snd b) <= eps) lx ly ->
         Cmod (ix - iy) <= 16 * PI * PI / 3 / Cmod (RtoC (om * om + p * p)) * weight lx * eps)
     (gen_reductions J g om p nc m mq beta mu g0 f0 quarks) (gen_reductions K g om p nc m mq beta mu g0 f0 quarks)) /\
  (forall (om : C) p, (om * om + RtoC (p * p))%C <> RtoC 0 -> Forall2 (fun x y : R * list (R * C) * C * C => let '(_, lx, ix, _) := x in let '(_, ly, iy, _) := y in
       forall eps, Forall2 (fun a b : R * C => Cmod (snd a - snd b) <= eps) lx ly ->
         Cmod (ix - iy) <= 16 * PI * PI / 3 / Cmod (om * om + RtoC (p * p))%C * weight lx * eps)
     (gen_reductions J g om p nc m mq beta mu g0 f0 quarks) (gen_reductions K g om p nc m mq beta mu g0 f0 quarks)) /\
  (forall om : R, om <> 0 -> Forall2 (fun x y : R * list (R * C) * C * C => let '(_, lx, ix, _) := x in let '(_, ly, iy, _) := y in
       forall eps, Forall2 (fun a b : R * C => Cmod (snd a - snd b) <= eps) lx ly ->
         Cmod (ix - iy) <= 16 * PI * PI / 3 / Cmod (RtoC (om * om)) * weight lx * eps)
     (zp_reductions J g om nc m mq beta mu g0 f0 quarks) (zp_reductions K g om nc m mq beta mu g0 f0 quarks)) /\
  (forall om : C, om <> RtoC 0 -> Forall2 (fun x y : R * list (R * C) * C * C => let '(_, lx, ix, _) := x in let '(_, ly, iy, _) := y in
       forall eps, Forall2 (fun a b : R * C => Cmod (snd a - snd b) <= eps) lx ly ->
         Cmod (ix - iy) <= 16 * PI * PI / 3 / Cmod (om * om)%C * weight lx * eps)
     (zp_reductions J g om nc m mq beta mu g0 f0 quarks) (zp_reductions K g om nc m mq beta mu g0 f0 quarks)) /\
  (forall p, p <> 0 -> Forall2 (fun x y : R * list (R * R) * R * R => let '(_, lx, ix, _) := x in let '(_, ly, iy, _) := y in
       forall eps, Forall2 (fun a b : R * R => Rabs (snd a - snd b) <= eps) lx ly ->
         Rabs (ix - iy) <= 16 * PI * PI / 3 / (p * p) * weight lx * eps)
     (zm_reductions J g p nc m mq beta mu g0 f0 quarks) (zm_reductions K g p nc m mq beta mu g0 f0 quarks)).
Proof. exact inv_err. Qed.
Print Assumptions C93_inverse_dressings.

(** Dressing functions and propagators: away from the poles the error is amplified by the inverse
    square of the inverse dressing function. *)
Theorem C93_dressings_propagators : forall J K g m mq beta mu g0 f0 cfg,
  (forall (om : R) p, om * om + p * p <> 0 -> Forall2 (fun x y : C * C * C => let '(ix, dx, px) := x in let '(iy, dy, py) := y in
       forall delta, Cmod (ix - iy) <= delta -> delta < Cmod iy -> ix <> RtoC 0 /\
         Cmod (dx - dy) <= delta / (Cmod iy * (Cmod iy - delta)) /\
         Cmod (px - py) <= delta / (Cmod iy * (Cmod iy - delta)) / Cmod (RtoC (om * om + p * p)))
     (gen_families J g om p m mq beta mu g0 f0 cfg) (gen_families K g om p m mq beta mu g0 f0 cfg)) /\
  (forall (om : C) p, (om * om + RtoC (p * p))%C <> RtoC 0 -> Forall2 (fun x y : C * C * C => let '(ix, dx, px) := x in let '(iy, dy, py) := y in
       forall delta, Cmod (ix - iy) <= delta -> delta < Cmod iy -> ix <> RtoC 0 /\
         Cmod (dx - dy) <= delta / (Cmod iy * (Cmod iy - delta)) /\
         Cmod (px - py) <= delta / (Cmod iy * (Cmod iy - delta)) / Cmod (om * om + RtoC (p * p))%C)
     (gen_families J g om p m mq beta mu g0 f0 cfg) (gen_families K g om p m mq beta mu g0 f0 cfg)) /\
  (forall om : R, om <> 0 -> Forall2 (fun x y : C * C * C => let '(ix, dx, px) := x in let '(iy, dy, py) := y in
       forall delta, Cmod (ix - iy) <= delta -> delta < Cmod iy -> ix <> RtoC 0 /\
         Cmod (dx - dy) <= delta / (Cmod iy * (Cmod iy - delta)) /\
         Cmod (px - py) <= delta / (Cmod iy * (Cmod iy - delta)) / Cmod (RtoC (om * om)))
     (zp_families J g om m mq beta mu g0 f0 cfg) (zp_families K g om m mq beta mu g0 f0 cfg)) /\
  (forall om : C, om <> RtoC 0 -> Forall2 (fun x y : C * C * C => let '(ix, dx, px) := x in let '(iy, dy, py) := y in
       forall delta, Cmod (ix - iy) <= delta -> delta < Cmod iy -> ix <> RtoC 0 /\
         Cmod (dx - dy) <= delta / (Cmod iy * (Cmod iy - delta)) /\
         Cmod (px - py) <= delta / (Cmod iy * (Cmod iy - delta)) / Cmod (om * om)%C)
     (zp_families J g om m mq beta mu g0 f0 cfg) (zp_families K g om m mq beta mu g0 f0 cfg)) /\
  (forall p, p <> 0 -> Forall2 (fun x y : R * R * R => let '(ix, dx, px) := x in let '(iy, dy, py) := y in
       forall delta, Rabs (ix - iy) <= delta -> delta < Rabs iy -> ix <> 0 /\
         Rabs (dx - dy) <= delta / (Rabs iy * (Rabs iy - delta)) /\
         Rabs (px - py) <= delta / (Rabs iy * (Rabs iy - delta)) / (p * p))
     (zm_families J g p m mq beta mu g0 f0 cfg) (zm_families K g p m mq beta mu g0 f0 cfg)).
Proof. exact fam_err. Qed.
Print Assumptions C93_dressings_propagators.

(** From the routine to the gluon propagators of a field configuration: the deviation from the values of
    an exact routine grows with the number of flavours. *)
Theorem C93_field_config : forall K g om p m nc quarks f0 mu J eps, exact_integrator K -> (0 < g_nc g)%nat -> om <> 0 -> 0 < p -> m <> 0 ->
  let cfg := FieldConfig_new nc m quarks in let k := 16 * PI * PI / 3 / (om * om + p * p) in
  (forall beta, 0 < beta -> accurate_thermal eps J g om p m quarks beta mu ->
     Cmod (qcd_gluon_dressing_l_inv_w_field_config J g om p beta mu f0 cfg - qcd_gluon_dressing_l_inv_w_field_config K g om p beta mu f0 cfg) <= k * (1 + flavours quarks) * eps /\
     Cmod (qcd_gluon_dressing_t_inv_w_field_config J g om p beta mu f0 cfg - qcd_gluon_dressing_t_inv_w_field_config K g om p beta mu f0 cfg) <= k * (1 + flavours quarks) * eps) /\
  (0 <= eps -> accurate_zero_temp eps J g om p quarks mu ->
     Cmod (qcd_gluon_dressing_l_inv_zero_temp_w_field_config J g om p mu f0 cfg - qcd_gluon_dressing_l_inv_zero_temp_w_field_config K g om p mu f0 cfg) <= k * flavours quarks * eps /\
     Cmod (qcd_gluon_dressing_t_inv_zero_temp_w_field_config J g om p mu f0 cfg - qcd_gluon_dressing_t_inv_zero_temp_w_field_config K g om p mu f0 cfg) <= k * flavours quarks * eps).
Proof.
  exact (fun K g om p m nc quarks f0 mu J eps HK Hn Ho Hp Hm => conj
    (fun beta Hb HA => conj (cfg_l_err K g om p m nc quarks f0 mu HK Hn Ho Hp Hm J beta eps Hb HA) (cfg_t_err K g om p m nc quarks f0 mu HK Hn Ho Hp Hm J beta eps Hb HA))
    (fun He HA => conj (cfg_l0_err K g om p m nc quarks f0 mu HK Hn Ho Hp J eps He HA) (cfg_t0_err K g om p m nc quarks f0 mu HK Hn Ho Hp J eps He HA))).
Qed.
Print Assumptions C93_field_config.

(** The bound is attained. *)
Theorem C93_bound_attained : forall K g om p m nc quarks beta mu f0 eps, exact_integrator K -> 0 <= eps -> om * om + p * p <> 0 ->
  exists J, (forall f a b, accurate eps J f a b) /\
    Cmod (qcd_gluon_dressing_l_inv_w_field_config J g om p beta mu f0 (FieldConfig_new nc m quarks)
          - qcd_gluon_dressing_l_inv_w_field_config K g om p beta mu f0 (FieldConfig_new nc m quarks))
    = 16 * PI * PI / 3 / (om * om + p * p) * (1 + flavours quarks) * eps.
Proof.
  exact (fun K g om p m nc quarks beta mu f0 eps HK He Hs => ex_intro _ (shiftJ K eps)
    (conj (fun f a b => shift_accurate K eps f a b HK He) (attained K g om p m nc quarks beta mu f0 eps He Hs))).
Qed.
Print Assumptions C93_bound_attained.

(** The critical temperature found in data with errors up to [d] is one at which the true data are
    within [2 d] of their maximum; if the true maximum is clear by more than that, it is found. *)
Theorem C93_critical_temperature : forall ts ds ds' d t, Forall2 (fun a b => Rabs (a - b) <= d) ds ds' ->
  (find_critical_temperature ts ds = Ret t -> near_maximum (2 * d) ts ds' t) /\
  (clear_maximum (2 * d) ts ds' t -> find_critical_temperature ts ds = Ret t).
Proof. exact (fun ts ds ds' d t H => conj (fct_near ts ds ds' d t H) (fct_clear ts ds ds' d t H)). Qed.
Print Assumptions C93_critical_temperature.

(** Curves and infrared data of the phase-diagram program: a routine that is accurate enough on the
    integrals of the run gives the exact values up to any prescribed error. *)
Theorem C93_curves : forall K g c mu d, exact_integrator K -> (0 < g_nc g)%nat -> sensible c -> In mu (cfg_chempots c) -> 0 < d ->
  (pole_free_l K g c (curve_momenta c) -> exists eps, 0 < eps /\ forall J, accurate_run eps J g c (curve_momenta c) ->
     within d (curve_zero (prop_l0 J g) c mu) (curve_zero (prop_l0 K g) c mu) /\
     forall t, In t (skipn 1 (cfg_temps c)) -> within d (curve (prop_l J g) c mu t) (curve (prop_l K g) c mu t)) /\
  (pole_free_t K g c (curve_momenta c) -> exists eps, 0 < eps /\ forall J, accurate_run eps J g c (curve_momenta c) ->
     within d (curve_zero (prop_t0 J g) c mu) (curve_zero (prop_t0 K g) c mu) /\
     forall t, In t (skipn 1 (cfg_temps c)) -> within d (curve (prop_t J g) c mu t) (curve (prop_t K g) c mu t)).
Proof.
  exact (fun K g c mu d HK Hn HS Hmu Hd => conj (fun HP => curves_l_close K g c HK Hn HS mu d HP Hmu Hd) (fun HP => curves_t_close K g c HK Hn HS mu d HP Hmu Hd)).
Qed.
Print Assumptions C93_curves.

Theorem C93_infrared_data : forall K g c d, exact_integrator K -> (0 < g_nc g)%nat -> sensible c -> pole_free_l K g c (ir_momenta c) -> 0 < d ->
  exists eps, 0 < eps /\ forall J, accurate_run eps J g c (ir_momenta c) -> forall mu, In mu (cfg_chempots c) ->
    within d (ir_values (prop_l0 J g) (prop_l J g) c mu) (ir_values (prop_l0 K g) (prop_l K g) c mu).
Proof. exact (fun K g c d HK Hn HS => ir_close K g c HK Hn HS d). Qed.
Print Assumptions C93_infrared_data.

(** The phase diagram: whatever the exact data look like, the temperatures found are almost maxima; and if
    the exact maxima are unique, a routine that is accurate enough gives the same phase diagram. *)
Theorem C93_almost_maxima : forall K g c d, exact_integrator K -> (0 < g_nc g)%nat -> sensible c -> pole_free_l K g c (ir_momenta c) -> 0 < d ->
  exists eps, 0 < eps /\ forall J, accurate_run eps J g c (ir_momenta c) -> forall tcs, critical_temperatures (prop_l0 J g) (prop_l J g) c = Ret tcs ->
    Forall2 (fun mu t => exists vs, ir_values (prop_l0 K g) (prop_l K g) c mu = Ret vs /\ near_maximum d (cfg_temps c) vs t) (cfg_chempots c) tcs.
Proof. exact (fun K g c d HK Hn HS => tc_close K g c HK Hn HS d). Qed.
Print Assumptions C93_almost_maxima.

Theorem C93_phase_diagram : forall K g c, exact_integrator K -> (0 < g_nc g)%nat -> sensible c -> pole_free_l K g c (ir_momenta c) ->
  (forall mu vs, In mu (cfg_chempots c) -> ir_values (prop_l0 K g) (prop_l K g) c mu = Ret vs -> exists t, clear_maximum 0 (cfg_temps c) vs t) ->
  exists eps, 0 < eps /\ forall J, accurate_run eps J g c (ir_momenta c) ->
    compute_phase_diagram (prop_l0 J g) (prop_l J g) c = compute_phase_diagram (prop_l0 K g) (prop_l K g) c.
Proof. exact (fun K g c HK Hn HS => pd_same K g c HK Hn HS). Qed.
Print Assumptions C93_phase_diagram.

(** Data 1, 3, 2 with errors up to 2/5 still give the middle temperature, with errors of 3/5 no longer. *)
Example C93_example : (forall ds, Forall2 (fun a b => Rabs (a - b) <= 2 / 5) ds [1; 3; 2] -> find_critical_temperature [0; 1; 2] ds = Ret 1) /\
  Forall2 (fun a b => Rabs (a - b) <= 3 / 5) [1; 12 / 5; 13 / 5] [1; 3; 2] /\ find_critical_temperature [0; 1; 2] [1; 12 / 5; 13 / 5] = Ret 2.
Proof. exact ex_tc_error. Qed.

(** A run with a quark of mass 3, three temperatures and two chemical potentials, one of them above the
    mass: for some additive constant it has no poles, and a routine that is off by [eps] is accurate. *)
Example C93_example_run : exists f0, let c := err_c [0; 1; 2] [0; 5] f0 in sensible c /\ pole_free_l RInt_J g0 c (ir_momenta c) /\
  forall eps, 0 <= eps -> accurate_run eps (shiftJ RInt_J eps) g0 c (ir_momenta c).
Proof. exact ex_err_run. Qed.

Example C93_example_phase_diagram : exists f0, let c := err_c [0] [0; 1; 2; 5] f0 in sensible c /\ pole_free_l RInt_J g0 c (ir_momenta c) /\
  (forall mu vs, In mu (cfg_chempots c) -> ir_values (prop_l0 RInt_J g0) (prop_l RInt_J g0) c mu = Ret vs -> exists t, clear_maximum 0 (cfg_temps c) vs t) /\
  compute_phase_diagram (prop_l0 RInt_J g0) (prop_l RInt_J g0) c = Ret ([(0, 0); (1, 0); (2, 0); (5, 0)], []).
Proof. exact ex_err_unique. Qed.
