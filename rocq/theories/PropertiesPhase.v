(** * Properties C60-C67: the phase-diagram programs *)
From Coq Require Import Reals List ZArith Lra Lia.
From Coquelicot Require Import Coquelicot.
From Verif Require Import Num MConsts MVacuum MUtils MDress MTc MPhase SpecLim SpecInt SpecHtl SpecHot SpecTc SpecPhase PTc2 PPhase PPhase2 PPhase3 PPhase4 PExTherm PExPhase.
Import List ListNotations.
Open Scope R_scope.

(** C60. For every history of setter calls, any two propagators. *)
Theorem C60_tables : forall P0 P temps chempots momenta om renpoint f0_init fc h c files,
  cfg_run (Config_new temps chempots momenta om renpoint f0_init fc) h = Ret c ->
  renpoint <> 0 -> fc_gluon fc <> 0 ->
  compute_propagators P0 P c = Ret files ->
  length files = length (cfg_chempots c) /\
  forall i mu fs, nth_error (cfg_chempots c) i = Some mu -> nth_error files i = Some fs ->
    length fs = length (cfg_temps c) /\
    forall j t f, nth_error (cfg_temps c) j = Some t -> nth_error fs j = Some f ->
      of_mu f = mu /\ of_t f = entry_temp j t /\ map fst (of_rows f) = compute_vec momenta /\
      exists d, maybe_corrected_data c mu (entry_temp j t) = Ret d /\
        let D := at_entry P0 P om (fc_gluon fc) mu d j t in
        (D renpoint <> 0 -> forall p v, In (p, v) (of_rows f) -> v = normalised (fc_gluon fc) renpoint D p).
Proof. exact tables. Qed.
Print Assumptions C60_tables.

Theorem C60_renormalisation_point : forall P0 P temps chempots momenta om renpoint f0_init fc h c files,
  cfg_run (Config_new temps chempots momenta om renpoint f0_init fc) h = Ret c ->
  renpoint <> 0 -> fc_gluon fc <> 0 ->
  (forall mu f0 fc', Re (P0 om renpoint mu f0 fc') <> 0) ->
  (forall beta mu f0 fc', Re (P om renpoint beta mu f0 fc') <> 0) ->
  compute_propagators P0 P c = Ret files ->
  forall fs f p v, In fs files -> In f fs -> In (p, v) (of_rows f) ->
  p * fc_gluon fc = renpoint -> v * renpoint ^ 2 = fc_gluon fc ^ 2.
Proof. exact renormalised. Qed.
Print Assumptions C60_renormalisation_point.

(** The propagators handed to the tables: the one used at the first temperature is the limit of the one used at
    the others, and at high temperature each shows the screening of its polarization. *)
Theorem C60_zero_temperature_limit : forall J g om p mu f0 nc m quarks, exact_integrator J -> (0 < g_nc g)%nat -> m <> 0 -> om <> 0 -> 0 < p ->
  let fc := FieldConfig_new nc m quarks in
  (qcd_gluon_dressing_l_inv_zero_temp_w_field_config J g om p mu f0 fc <> RtoC 0 ->
    tendsC (Rbar_locally p_infty) (fun beta => prop_l J g om p beta mu f0 fc) (prop_l0 J g om p mu f0 fc)) /\
  (qcd_gluon_dressing_t_inv_zero_temp_w_field_config J g om p mu f0 fc <> RtoC 0 ->
    tendsC (Rbar_locally p_infty) (fun beta => prop_t J g om p beta mu f0 fc) (prop_t0 J g om p mu f0 fc)).
Proof. exact prop_cold. Qed.
Print Assumptions C60_zero_temperature_limit.

Theorem C60_high_temperature_limit : forall J g om p mu f0 nc m quarks, exact_integrator J -> (0 < g_nc g)%nat -> m <> 0 -> om <> 0 -> 0 < p ->
  let fc := FieldConfig_new nc m quarks in
  tendsC (Rbar_locally p_infty) (fun T => RtoC (T * T) * prop_l J g om p (/ T) mu f0 fc)%C (RtoC (/ (hot_mass (g_nc g) (quark_total quarks) 0 * htl_L om p))) /\
  tendsC (Rbar_locally p_infty) (fun T => RtoC (T * T) * prop_t J g om p (/ T) mu f0 fc)%C (RtoC (/ (hot_mass (g_nc g) (quark_total quarks) 0 * htl_T om p))).
Proof. exact prop_hot. Qed.
Print Assumptions C60_high_temperature_limit.

(** Propagator 1/(1+p^2), m = 1, normalised at 2. *)
Example C60_example : compute_propagators toy0 (fun om p _ mu f0 fc => toy0 om p mu f0 fc)
    (Config_new (0, 0, 1) (0, 0, 1) (1, 2, 1) 0 2 0 (FieldConfig_new 3 1 [])) =
  Ret [[mkOutFile 0 0 [(1, 5 / 8); (2, 1 / 4)]]].
Proof. exact ex_table. Qed.

(** C61. *)
Theorem C61_boundary : forall P0 P temps chempots momenta om renpoint f0_init fc h c pb d2,
  cfg_run (Config_new temps chempots momenta om renpoint f0_init fc) h = Ret c ->
  renpoint <> 0 -> fc_gluon fc <> 0 ->
  compute_phase_diagram P0 P c = Ret (pb, d2) ->
  map fst pb = cfg_chempots c /\
  forall mu tc, In (mu, tc) pb -> exists vals, first_argmax (cfg_temps c) vals tc /\
    length vals = length (cfg_temps c) /\
    forall j t v, nth_error (cfg_temps c) j = Some t -> nth_error vals j = Some v ->
      exists d, maybe_corrected_data c mu (entry_temp j t) = Ret d /\
        let D := at_entry P0 P om (fc_gluon fc) mu d j t in
        (D renpoint <> 0 -> v = normalised (fc_gluon fc) renpoint D (fst (fst momenta))).
Proof. exact diagram_spec. Qed.
Print Assumptions C61_boundary.

Theorem C61_infrared_values : forall P0 P temps chempots momenta om renpoint f0_init fc h c mu vals,
  cfg_run (Config_new temps chempots momenta om renpoint f0_init fc) h = Ret c ->
  renpoint <> 0 -> fc_gluon fc <> 0 ->
  ir_values P0 P c mu = Ret vals ->
  length vals = length (cfg_temps c) /\
  forall j t v, nth_error (cfg_temps c) j = Some t -> nth_error vals j = Some v ->
    exists d, maybe_corrected_data c mu (entry_temp j t) = Ret d /\
      let D := at_entry P0 P om (fc_gluon fc) mu d j t in
      (D renpoint <> 0 -> v = normalised (fc_gluon fc) renpoint D (fst (fst momenta))).
Proof. exact ir_values_spec. Qed.
Print Assumptions C61_infrared_values.

(** A propagator that is largest at t = 1 for every chemical potential. *)
Example C61_example : compute_phase_diagram toyone toy1 toy_cfg = Ret ([(0, 1); (1, 1); (2, 1); (3, 1); (4, 1)], [(2, 0)]).
Proof. exact ex_boundary. Qed.

(** C62. *)
Theorem C62_diagram_panics : forall P0 P c, cfg_temps c <> [] ->
  compute_phase_diagram P0 P c = Panic <->
  (length (cfg_chempots c) < 4)%nat \/
  exists mu t, In mu (cfg_chempots c) /\ (t = 0 \/ In t (skipn 1 (cfg_temps c))) /\ maybe_corrected_data c mu t = Panic.
Proof. exact diagram_panic. Qed.
Print Assumptions C62_diagram_panics.

Theorem C62_tables_panic : forall P0 P c,
  (compute_propagators P0 P c = Panic <->
   exists mu t, In mu (cfg_chempots c) /\ (t = 0 \/ In t (skipn 1 (cfg_temps c))) /\ maybe_corrected_data c mu t = Panic) /\
  (compute_ir_limit P0 P c = Panic <->
   exists mu t, In mu (cfg_chempots c) /\ (t = 0 \/ In t (skipn 1 (cfg_temps c))) /\ maybe_corrected_data c mu t = Panic).
Proof. exact (fun P0 P c => conj (propagators_panic P0 P c) (ir_panic P0 P c)). Qed.
Print Assumptions C62_tables_panic.

Theorem C62_program_panics : forall J g fit d,
  physical_tc_main J g fit d = Panic <->
  (length (compute_vec (in_manychempots d)) < 4)%nat \/
  exists pb d2, compute_phase_diagram (prop_l0 J g) (prop_l J g) (physical_start J g d) = Ret (pb, d2) /\
    (snd (hd (0, 0) pb) = 0 \/
     (exists mu, (In mu (compute_vec (in_manychempots d)) \/ In mu (compute_vec (in_fewchempots d))) /\
        mu < hd 0 (compute_vec (in_manychempots d))) \/
     fit (reduce_phase_boundary pb) = Panic).
Proof. exact main_panic. Qed.
Print Assumptions C62_program_panics.

(** Three chemical potentials are too few; five are enough. *)
Example C62_example :
  compute_phase_diagram toyone toy1 (Config_new (0, 2, 1) (0, 2, 1) (1, 2, 1) 0 2 0 (FieldConfig_new 3 1 [])) = Panic /\
  compute_phase_diagram toyone toy1 toy_cfg <> Panic.
Proof. split; [exact ex_too_few|rewrite ex_boundary; discriminate]. Qed.

(** C63. *)
Theorem C63_entries : forall P0 P c v0 v1 dv pb d2 mu x, cfg_chempots c = compute_vec (v0, v1, dv) -> dv <> 0 ->
  compute_phase_diagram P0 P c = Ret (pb, d2) -> In (mu, x) d2 ->
  exists i m0 m1 m3 m4 t0 t1 t2 t3 t4,
    nth_error pb i = Some (m0, t0) /\ nth_error pb (i + 1) = Some (m1, t1) /\ nth_error pb (i + 2) = Some (mu, t2) /\
    nth_error pb (i + 3) = Some (m3, t3) /\ nth_error pb (i + 4) = Some (m4, t4) /\
    m0 = mu - 2 * dv /\ m4 = mu + 2 * dv /\ x = (t4 + t0 - 2 * t2) / (4 * dv ^ 2).
Proof. exact second_entry. Qed.
Print Assumptions C63_entries.

Theorem C63_exact_on_parabolas : forall P0 P c v0 v1 dv pb d2 a b e, cfg_chempots c = compute_vec (v0, v1, dv) -> dv <> 0 ->
  compute_phase_diagram P0 P c = Ret (pb, d2) ->
  (forall mu tc, In (mu, tc) pb -> tc = a * mu ^ 2 + b * mu + e) ->
  forall mu x, In (mu, x) d2 -> x = 2 * a.
Proof. exact second_exact. Qed.
Print Assumptions C63_exact_on_parabolas.

Theorem C63_concave : forall P0 P c v0 v1 dv pb d2, cfg_chempots c = compute_vec (v0, v1, dv) -> dv <> 0 ->
  compute_phase_diagram P0 P c = Ret (pb, d2) -> concave (map snd pb) ->
  forall mu x, In (mu, x) d2 -> x <= 0.
Proof. exact second_concave. Qed.
Print Assumptions C63_concave.

Theorem C63_rows : forall P0 P c pb d2, compute_phase_diagram P0 P c = Ret (pb, d2) ->
  (4 <= length pb)%nat /\ length d2 = (length pb - 4)%nat.
Proof. exact second_rows. Qed.
Print Assumptions C63_rows.

(** Tc = 25 - mu^2. *)
Example C63_example : second_differences [0; 1; 2; 3; 4; 5] [25; 24; 21; 16; 9; 0] = Ret [(2, -2); (3, -2)].
Proof. exact ex_second. Qed.

(** C64. *)
Theorem C64_file_names_distinct : forall P0 P rd temps chempots momenta om renpoint f0_init fc h c files t0 t1 dt m0 m1 dm,
  nearest rd ->
  cfg_run (Config_new temps chempots momenta om renpoint f0_init fc) h = Ret c ->
  cfg_temps c = compute_vec (t0, t1, dt) -> cfg_chempots c = compute_vec (m0, m1, dm) ->
  0 <= t0 -> / 10000 < dt -> / 10000 < dm ->
  compute_propagators P0 P c = Ret files -> NoDup (map (fname rd) (concat files)).
Proof. exact files_distinct. Qed.
Print Assumptions C64_file_names_distinct.

(** Without the lower bound on the steps two files get the same name, and one overwrites the other. *)
Theorem C64_fine_grid_refuted : forall P0 P rd, nearest rd ->
  exists c files f f', c = Config_new (0, 2 / 100000, / 100000) (0, 0, 1) (1, 2, 1) 1 1 0 (FieldConfig_new 3 1 []) /\
    compute_propagators P0 P c = Ret files /\ In f (concat files) /\ In f' (concat files) /\
    of_t f <> of_t f' /\ fname rd f = fname rd f'.
Proof. exact files_collide. Qed.
Print Assumptions C64_fine_grid_refuted.

(** The default input of the program. *)
Example C64_example : forall J g rd files, nearest rd ->
  let d := default_input in
  compute_propagators (prop_l0 J g) (prop_l J g)
    (Config_new (in_fewtemps d) (in_fewchempots d) (in_momenta d) (in_om d) (in_renpoint d) (in_f0 d)
       (FieldConfig_new 3 (in_mg d) [(2%nat, 35 / 100); (1%nat, 45 / 100)])) = Ret files ->
  NoDup (map (fname rd) (concat files)).
Proof. exact ex_names. Qed.

(** C65. *)
Theorem C65_one_mass : forall J g, exists rows, one_mass_main J g = Ret rows /\ length rows = 133%nat /\
  map fst rows = (0%nat, [0], 0) :: flat_map (fun nf => table_keys nf [[8/100]; [4/10]; [8/10]] [0; 1/10; 2/10; 3/10; 4/10; 5/10; 6/10; 7/10; 8/10; 9/10; 1]) [1; 2; 4; 6]%nat /\
  let '(m, renpoint, om, f0, pbase, ts) := (656 / 1000, 4, / 100000, - (876 / 1000), / 100, trunc_vec (/ 100) (2 / 10) (5 / 1000)) in
  forall nf mq mu tc, In (nf, [mq], mu, tc) rows ->
    let c := FieldConfig_new (g_nc g) m [(nf, mq)] in
    prop_l_zero J g om mu f0 c renpoint <> 0 -> (forall t, In t ts -> prop_l_at J g om mu f0 c t renpoint <> 0) ->
    critical_at m renpoint pbase ts (prop_l_zero J g om mu f0 c) (prop_l_at J g om mu f0 c) tc.
Proof. exact one_mass_main_spec. Qed.
Print Assumptions C65_one_mass.

Theorem C65_two_masses : forall J g, exists rows, two_masses_main J g = Ret rows /\ length rows = 105%nat /\
  map fst rows = (0%nat, [0; 0], 0) :: flat_map (fun nf => table_keys nf [[3/10; 4/10]; [3/10; 6/10]; [8/10; 1]; [3/10; 1]]
      [0; 1/10; 2/10; 3/10; 4/10; 5/10; 6/10; 7/10; 8/10; 9/10; 1; 11/10; 12/10]) [1; 4]%nat /\
  let '(m, renpoint, om, f0, pbase, ts) := (656 / 1000, 4, / 100000, - (876 / 1000), / 100, trunc_vec (/ 100) (2 / 10) (5 / 1000)) in
  forall nf mq1 mq2 mu tc, In (nf, [mq1; mq2], mu, tc) rows ->
    let c := FieldConfig_new 3 m [(nf, mq1); (nf, mq2)] in
    prop_l_zero J g om mu f0 c renpoint <> 0 -> (forall t, In t ts -> prop_l_at J g om mu f0 c t renpoint <> 0) ->
    critical_at m renpoint pbase ts (prop_l_zero J g om mu f0 c) (prop_l_at J g om mu f0 c) tc.
Proof. exact two_masses_main_spec. Qed.
Print Assumptions C65_two_masses.

Theorem C65_loop : forall J m renpoint om f0 pbase masses mus ts nfs, m <> 0 -> renpoint <> 0 -> forall g,
  exists rows, one_mass_loop J g m renpoint om f0 pbase masses mus ts nfs = Ret rows /\
    map fst rows = flat_map (fun nf => table_keys nf (map (fun mq => [mq]) masses) mus) nfs /\
    forall nf mq mu tc, In (nf, [mq], mu, tc) rows ->
      let c := FieldConfig_new (g_nc g) m [(nf, mq)] in
      prop_l_zero J g om mu f0 c renpoint <> 0 -> (forall t, In t ts -> prop_l_at J g om mu f0 c t renpoint <> 0) ->
      critical_at m renpoint pbase ts (prop_l_zero J g om mu f0 c) (prop_l_at J g om mu f0 c) tc.
Proof. exact one_mass_loop_spec. Qed.
Print Assumptions C65_loop.

Example C65_example : table_keys 2 [[8 / 100]; [4 / 10]] [0; 1] =
  [(2%nat, [8 / 100], 0); (2%nat, [8 / 100], 1); (2%nat, [4 / 10], 0); (2%nat, [4 / 10], 1)] /\
  critical_at 1 2 1 [1; 2] (fun _ => 1) (fun t p => 1 + (2 - p) * t * (2 - t)) 1.
Proof. exact ex_critical. Qed.

(** C66. *)
Theorem C66_equal_masses : forall J g m renpoint om f0 pbase masses mus ts n rows,
  two_masses_rows J g (g_nc g) m renpoint om f0 pbase (map (fun mq => (mq, mq)) masses) mus ts n = Ret rows ->
  one_mass_rows J g m renpoint om f0 pbase masses mus ts (n + n) =
    Ret (map (fun r : TcRow => let '(_, ms, mu, tc) := r in ((n + n)%nat, [hd 0 ms], mu, tc)) rows).
Proof. exact programs_agree. Qed.
Print Assumptions C66_equal_masses.

(** For nf = 0 the programs switch to the Yang-Mills functions, the vacuum one being in units of m. *)
Theorem C66_yang_mills : forall J g m renpoint om f0 pbase ts nc quarks mu, m <> 0 -> Forall (fun q : nat * R => fst q = 0%nat) quarks ->
  let c := FieldConfig_new nc m quarks in
  ov_ym_tc J g m renpoint om f0 pbase ts =
  ov_tc m renpoint pbase ts (fun p => Re (qcd_gluon_propagator_l_zero_temp_w_field_config J g om p mu f0 c))
    (fun beta p => Re (qcd_gluon_propagator_l_w_field_config J g om p beta mu f0 c)).
Proof. exact ym_tc_agree. Qed.
Print Assumptions C66_yang_mills.

Theorem C66_curves : forall J g m renpoint om f0 momenta nc quarks mu, m <> 0 -> renpoint <> 0 ->
  (Forall (fun q : nat * R => fst q = 0%nat) quarks ->
   let c := FieldConfig_new nc m quarks in
   prop_l_zero J g om mu f0 c renpoint <> 0 ->
   ov_ym_curve_zero m renpoint om f0 momenta = map (normalised m renpoint (prop_l_zero J g om mu f0 c)) momenta) /\
  (forall D : R -> R, D renpoint <> 0 -> ov_curve m renpoint momenta D = map (normalised m renpoint D) momenta).
Proof.
  exact (fun J g m renpoint om f0 momenta nc quarks mu Hm Hr => conj (ym_curve_spec J g m renpoint om f0 momenta nc quarks mu Hm Hr)
    (fun D H => ov_curve_spec m renpoint momenta D Hm Hr H)).
Qed.
Print Assumptions C66_curves.

(** The two-mass program can always be run on equal masses. *)
Example C66_example : forall J g, exists rows,
  two_masses_rows J g (g_nc g) 1 4 0 0 1 [(1 / 2, 1 / 2)] [0] [1] 1 = Ret rows /\
  exists tc, rows = [(1%nat, [1 / 2; 1 / 2], 0, tc)] /\
    one_mass_rows J g 1 4 0 0 1 [1 / 2] [0] [1] 2 = Ret [(2%nat, [1 / 2], 0, tc)].
Proof. exact ex_agree. Qed.

(** C67. *)
Theorem C67_truncated_grid : forall v0 v1 dv, 0 < dv -> v0 <= v1 ->
  let l := trunc_vec v0 v1 dv in
  (forall k x, nth_error l k = Some x -> x = v0 + dv * INR k /\ v0 <= x <= v1) /\
  hd_error l = Some v0 /\ exists last, nth_error l (length l - 1) = Some last /\ v1 - dv < last.
Proof. exact trunc_grid. Qed.
Print Assumptions C67_truncated_grid.

Theorem C67_same_on_multiples : forall v0 n dv, 0 < dv ->
  trunc_vec v0 (v0 + dv * INR n) dv = compute_vec (v0, v0 + dv * INR n, dv) /\
  length (trunc_vec v0 (v0 + dv * INR n) dv) = S n.
Proof. exact trunc_exact. Qed.
Print Assumptions C67_same_on_multiples.

Theorem C67_defect_costs_a_point : forall v0 n dv e, 0 < dv -> 0 < e <= dv / 2 ->
  length (trunc_vec v0 (v0 + dv * INR (S n) - e) dv) = S n /\ length (compute_vec (v0, v0 + dv * INR (S n) - e, dv)) = S (S n).
Proof. exact trunc_fragile. Qed.
Print Assumptions C67_defect_costs_a_point.

Example C67_example : length (trunc_vec (/ 100) (2 / 10) (5 / 1000)) = 39%nat /\ length (trunc_vec (/ 100) 3 (/ 100)) = 300%nat.
Proof. exact ex_trunc. Qed.
