(** * The computations of the phase-diagram programs
    (tc_long_prop/src/bin/physical_tc.rs, one_mass_overall.rs, two_masses_overall.rs)

    Plotting, logging, file writing and the YAML input are not modelled; what is
    modelled is the data which the programs write and plot. Rows are printed by
    the programs with [{}] (exact) or [{:.4}]/[{:.3}]; here they are real numbers.
    [par_iter] is a sequential map (the closures have no side effect besides
    logging and writing distinct files). *)
From Coq Require Import Reals List ZArith.
From Coquelicot Require Import Coquelicot.
From Verif Require Import Num MConsts MVacuum MUtils MDress MTc.
Import List ListNotations.
Open Scope R_scope.

Definition obind {A B} (x : outcome A) (f : A -> outcome B) : outcome B :=
  match x with Panic => Panic | Ret a => f a end.

(** [iter().map(f).collect()] for a closure that may panic. *)
Fixpoint omap {A B} (f : A -> outcome B) (l : list A) : outcome (list B) :=
  match l with
  | [] => Ret []
  | x :: l' => obind (f x) (fun y => obind (omap f l') (fun ys => Ret (y :: ys)))
  end.

(** Slice indexing [l[i]]. *)
Definition oidx {A} (l : list A) (i : nat) : outcome A :=
  match nth_error l i with None => Panic | Some x => Ret x end.

(** ** bin/physical_tc.rs *)

(* bin/physical_tc.rs 11 *)
Definition D2W : nat := 2.

Section Curves.
(** The two propagators that a function of the program uses: at zero temperature
    (arguments om, p, mu, f0, config) and at finite temperature (om, p, beta, mu,
    f0, config). *)
Context (P0 : R -> R -> R -> R -> FieldConfig -> C)
        (P : R -> R -> R -> R -> R -> FieldConfig -> C).

(* bin/physical_tc.rs 199, 308, 419, 468 *)
Definition renfac (c : Config) : R :=
  let m := fc_gluon (cfg_fieldconfig c) in cfg_renpoint2 c / (m * m).

(* bin/physical_tc.rs 221-231, 330-342: the curve at zero temperature *)
Definition curve_zero (c : Config) (mu : R) : outcome (list R) :=
  let m := fc_gluon (cfg_fieldconfig c) in
  obind (maybe_corrected_data c mu 0) (fun d =>
    let '(fc, f0) := d in
    let z := Re (P0 (cfg_om c) (cfg_renpoint c) mu f0 fc) * renfac c in
    Ret (map (fun p => Re (P0 (cfg_om c) (p * m) mu f0 fc) / z) (cfg_momenta c))).

(* bin/physical_tc.rs 257-259, 269-279, 368-370, 380-390: the curve at temperature t (in units of m) *)
Definition curve (c : Config) (mu t : R) : outcome (list R) :=
  let m := fc_gluon (cfg_fieldconfig c) in
  let beta := 1 / (t * m) in
  obind (maybe_corrected_data c mu t) (fun d =>
    let '(fc, f0) := d in
    let z := Re (P (cfg_om c) (cfg_renpoint c) beta mu f0 fc) * renfac c in
    Ret (map (fun p => Re (P (cfg_om c) (p * m) beta mu f0 fc) / z) (cfg_momenta c))).

(** One output file: the temperature and the chemical potential in its name, and
    its rows (p/m, m^2 Delta). *)
Record OutFile := mkOutFile { of_t : R; of_mu : R; of_rows : list (R * R) }.

(* bin/physical_tc.rs 208-299, 317-410: the files written for one chemical potential *)
Definition propagator_files_at (c : Config) (mu : R) : outcome (list OutFile) :=
  obind (curve_zero c mu) (fun v0 =>
  obind (omap (fun t => obind (curve c mu t) (fun v => Ret (mkOutFile t mu (combine (cfg_momenta c) v))))
           (skipn 1 (cfg_temps c))) (fun fs =>
  Ret (mkOutFile 0 mu (combine (cfg_momenta c) v0) :: fs))).

(* bin/physical_tc.rs 193-300 (longitudinal), 302-411 (transverse) *)
Definition compute_propagators (c : Config) : outcome (list (list OutFile)) :=
  omap (propagator_files_at c) (cfg_chempots c).

(* bin/physical_tc.rs 430-451, 474-495: the propagator at p = pbase on the grid of temperatures *)
Definition ir_values (c : Config) (mu : R) : outcome (list R) :=
  let m := fc_gluon (cfg_fieldconfig c) in
  obind (maybe_corrected_data c mu 0) (fun d =>
    let '(fc, f0) := d in
    let z := Re (P0 (cfg_om c) (cfg_renpoint c) mu f0 fc) * renfac c in
    let v0 := Re (P0 (cfg_om c) (cfg_pbase c * m) mu f0 fc) / z in
    obind (omap (fun t =>
      let beta := 1 / (t * m) in
      obind (maybe_corrected_data c mu t) (fun d =>
        let '(fc, f0) := d in
        let z := Re (P (cfg_om c) (cfg_renpoint c) beta mu f0 fc) * renfac c in
        Ret (Re (P (cfg_om c) (cfg_pbase c * m) beta mu f0 fc) / z))) (skipn 1 (cfg_temps c)))
    (fun vs => Ret (v0 :: vs))).

(* bin/physical_tc.rs 413-460: the plotted images, one per chemical potential *)
Definition compute_ir_limit (c : Config) : outcome (list (list R)) :=
  omap (ir_values c) (cfg_chempots c).

(* bin/physical_tc.rs 472-499: the critical temperatures *)
Definition critical_temperatures (c : Config) : outcome (list R) :=
  omap (fun mu => obind (ir_values c mu) (find_critical_temperature (cfg_temps c))) (cfg_chempots c).

(* bin/physical_tc.rs 501-509. [cpl - 2 * d2w] underflows (a panic with overflow
   checks, a capacity-overflow panic in [Vec::with_capacity] without). *)
Definition second_differences (chempots tcs : list R) : outcome (list (R * R)) :=
  let cpl := length chempots in
  obind (oidx chempots 1) (fun c1 =>
  obind (oidx chempots 0) (fun c0 =>
    let dmu := c1 - c0 in
    if Nat.ltb cpl (2 * D2W) then Panic
    else
      let dmu2r := INR (D2W * D2W) * dmu * dmu in
      omap (fun i =>
        obind (oidx tcs (i + D2W)) (fun ta =>
        obind (oidx tcs (i - D2W)) (fun tb =>
        obind (oidx tcs i) (fun ti =>
          let d2 := (ta + tb - 2 * ti) / dmu2r in
          obind (oidx chempots i) (fun mu => Ret (mu, d2))))))
        (seq D2W (cpl - D2W - D2W)))).

(* bin/physical_tc.rs 462-563: the returned boundary and the table of second
   derivatives written to tcd2_*.out; the rows of tc_*.out are those of the boundary *)
Definition compute_phase_diagram (c : Config) : outcome (list (R * R) * list (R * R)) :=
  obind (critical_temperatures c) (fun tcs =>
  obind (second_differences (cfg_chempots c) tcs) (fun tcsd2 =>
  Ret (combine (cfg_chempots c) tcs, tcsd2))).
End Curves.

(* tc_long_prop/src/lib.rs 24-34: the names imported by physical_tc.rs *)
Definition prop_l0 (J : Integrator) (g : globals R) (om p mu f0 : R) (fc : FieldConfig) : C :=
  qcd_gluon_propagator_l_zero_temp_w_field_config J g om p mu f0 fc.
Definition prop_l (J : Integrator) (g : globals R) (om p beta mu f0 : R) (fc : FieldConfig) : C :=
  qcd_gluon_propagator_l_w_field_config J g om p beta mu f0 fc.
Definition prop_t0 (J : Integrator) (g : globals R) (om p mu f0 : R) (fc : FieldConfig) : C :=
  qcd_gluon_propagator_t_zero_temp_w_field_config J g om p mu f0 fc.
Definition prop_t (J : Integrator) (g : globals R) (om p beta mu f0 : R) (fc : FieldConfig) : C :=
  qcd_gluon_propagator_t_w_field_config J g om p beta mu f0 fc.

(* bin/physical_tc.rs 565-580; only the first two of the three quark masses are used *)
Record InputData := mkInputData {
  in_mg : R; in_om : R; in_renpoint : R;
  in_mq : R * R * R; in_mqc : R * R * R; in_f0 : R;
  in_fewtemps : R * R * R; in_moretemps : R * R * R; in_manytemps : R * R * R;
  in_fewchempots : R * R * R; in_morechempots : R * R * R; in_manychempots : R * R * R;
  in_momenta : R * R * R
}.

(* bin/physical_tc.rs 589-610 *)
Definition default_input : InputData := {|
  in_mg := 656 / 1000; in_om := / 100000; in_renpoint := 4;
  in_mq := (35 / 100, 45 / 100, 15 / 10); in_mqc := (125 / 1000, 225 / 1000, 12 / 10); in_f0 := - (876 / 1000);
  in_fewtemps := (0, 1758 / 10000, 293 / 10000);
  in_moretemps := (0, 1758 / 10000, 117 / 10000);
  in_manytemps := (0, 1758 / 10000, 12 / 100000);
  in_fewchempots := (0, 8 / 10, / 10);
  in_morechempots := (0, 8 / 10, 25 / 1000);
  in_manychempots := (0, 8 / 10, / 100);
  in_momenta := (/ 100, 3, / 100) |}.

Record PhysicalOutput := mkPhysicalOutput {
  po_long : list (list OutFile); po_trans : list (list OutFile);
  po_ir : list (list R);
  po_boundary : list (R * R); po_d2 : list (R * R);
  po_cboundary : list (R * R); po_cd2 : list (R * R);
  po_fit : list R;
  po_clong : list (list OutFile); po_ctrans : list (list OutFile)
}.

(* bin/physical_tc.rs 661-731. [fit] stands for [parametrize_phase_boundary],
   i.e. peroxide's Levenberg-Marquardt optimizer; its result is only written out. *)
Definition physical_tc_main (J : Integrator) (g : globals R) (fit : list (R * R) -> outcome (list R))
    (d : InputData) : outcome PhysicalOutput :=
  let '(mq1, mq2, _) := in_mq d in
  let '(mq1c, mq2c, _) := in_mqc d in
  let fc := FieldConfig_new 3 (in_mg d) [(2%nat, mq1); (1%nat, mq2)] in
  let cfc := FieldConfig_new 3 (in_mg d) [(2%nat, mq1c); (1%nat, mq2c)] in
  let c := Config_new (in_fewtemps d) (in_fewchempots d) (in_momenta d) (in_om d) (in_renpoint d) (in_f0 d) fc in
  obind (compute_propagators (prop_l0 J g) (prop_l J g) c) (fun long =>
  obind (compute_propagators (prop_t0 J g) (prop_t J g) c) (fun trans =>
  let c := set_chemicalpotentials (in_morechempots d) (set_temperatures (in_moretemps d) c) in
  obind (compute_ir_limit (prop_l0 J g) (prop_l J g) c) (fun ir =>
  let c := set_chemicalpotentials (in_manychempots d) (set_temperatures (in_manytemps d) c) in
  obind (compute_phase_diagram (prop_l0 J g) (prop_l J g) c) (fun pd =>
  let pb := fst pd in
  obind (set_correctedfieldconfig (Some cfc) c) (fun c =>
  let c := set_phase_boundary (Some pb) c in
  obind (compute_phase_diagram (prop_l0 J g) (prop_l J g) c) (fun cpd =>
  obind (match cfg_phase_boundary c with None => Panic | Some b => fit b end) (fun params =>
  let c := set_chemicalpotentials (in_fewchempots d) (set_temperatures (in_fewtemps d) c) in
  obind (compute_propagators (prop_l0 J g) (prop_l J g) c) (fun clong =>
  obind (compute_propagators (prop_t0 J g) (prop_t J g) c) (fun ctrans =>
  Ret (mkPhysicalOutput long trans ir pb (snd pd) (fst cpd) (snd cpd) params clong ctrans)))))))))).

(** ** bin/one_mass_overall.rs and bin/two_masses_overall.rs *)

(* one_mass_overall.rs 26-28, 95-97, 216-218; two_masses_overall.rs 30-32, 99-101, 218-220:
   here the quotient is truncated ([as usize], saturating at 0) instead of rounded *)
Definition trunc_vec (vmin vmax dv : R) : list R :=
  let vrange := vmax - vmin in
  let n := Z.to_nat (Int_part (vrange / dv)) in
  map (fun k => vmin + dv * INR k) (seq 0 (S n)).

Section Overall.
(** The zero-temperature propagator as a function of the momentum in units of m
    and the finite-temperature one as a function of the dimensionful momentum and
    beta, real parts; [m] and [renpoint] in GeV. *)
Context (m renpoint : R) (momenta : list R).

(* one_mass_overall.rs 30-32 *)
Definition ov_renf : R := (renpoint * renpoint) / (m * m).

(* one_mass_overall.rs 160-170, 174-188 (also 57-87 for nf = 0); two_masses_overall.rs
   161-171, 175-189: normalised curve, D the real part of the propagator as a function
   of the dimensionful momentum *)
Definition ov_curve (D : R -> R) : list R :=
  let z := D renpoint * ov_renf in
  map (fun p => D (p * m) / z) momenta.

(* one_mass_overall.rs 228-262: data at p = pbase, with [D0] at zero temperature and
   [D beta] at finite temperature *)
Definition ov_ir (pbase : R) (tdomain : list R) (D0 : R -> R) (D : R -> R -> R) : list R :=
  (D0 (pbase * m) / (D0 renpoint * ov_renf)) ::
  map (fun t => let beta := 1 / (t * m) in
         D beta (pbase * m) / (D beta renpoint * ov_renf)) tdomain.

(* one_mass_overall.rs 102-103, 225-226, 255: domain = vec![0.] followed by tdomain *)
Definition ov_tc (pbase : R) (tdomain : list R) (D0 : R -> R) (D : R -> R -> R) : outcome R :=
  find_critical_temperature (0 :: tdomain) (ov_ir pbase tdomain D0 D).
End Overall.

(* one_mass_overall.rs 57-70, 112-116: for nf = 0 the vacuum propagator is evaluated at the
   adimensional s and normalised by its value at the renormalisation point *)
Definition ov_ym_curve_zero (m renpoint om f0 : R) (momenta : list R) : list R :=
  let m2 := m * m in
  let z := ym_gluon_propagator_landau ((om * om + renpoint * renpoint) / m2) f0 * ov_renf m renpoint in
  map (fun p => ym_gluon_propagator_landau (om * om / m2 + p * p) f0 / z) momenta.
Definition ov_ym_ir (J : Integrator) (g : globals R) (m renpoint om f0 pbase : R) (tdomain : list R) : list R :=
  let m2 := m * m in
  let z := ym_gluon_propagator_landau ((om * om + renpoint * renpoint) / m2) f0 * ov_renf m renpoint in
  (ym_gluon_propagator_landau (om * om / m2 + pbase * pbase) f0 / z) ::
  map (fun t => let beta := 1 / (t * m) in
         let z := Re (ym_gluon_propagator_l J g om renpoint m beta f0) * ov_renf m renpoint in
         Re (ym_gluon_propagator_l J g om (pbase * m) m beta f0) / z) tdomain.

(* one_mass_overall.rs 102-129: the critical temperature written for nf = 0 *)
Definition ov_ym_tc (J : Integrator) (g : globals R) (m renpoint om f0 pbase : R) (tdomain : list R) : outcome R :=
  find_critical_temperature (0 :: tdomain) (ov_ym_ir J g m renpoint om f0 pbase tdomain).

(** A row of tc.out: nf, quark masses, mu, Tc/m. *)
Definition TcRow : Type := (nat * list R * R * R)%type.

(* one_mass_overall.rs 141-142, 223-262: rows for one nf; the call of
   [set_number_of_fermions] changes the globals seen by the propagators *)
Definition one_mass_rows (J : Integrator) (g : globals R) (m renpoint om f0 pbase : R)
    (quark_masses chempots tdomain : list R) (nf : nat) : outcome (list TcRow) :=
  let g := set_number_of_fermions OpsR nf g in
  obind (omap (fun mq => omap (fun mu =>
      obind (ov_tc m renpoint pbase tdomain
        (fun p => Re (qcd_gluon_propagator_l_zero_temp J g om p m mq mu f0))
        (fun beta p => Re (qcd_gluon_propagator_l J g om p m mq beta mu f0)))
      (fun tc => Ret (nf, [mq], mu, tc))) chempots) quark_masses)
  (fun l => Ret (concat l)).

(* two_masses_overall.rs 222-271: rows for one nf *)
Definition two_masses_rows (J : Integrator) (g : globals R) (nc : nat) (m renpoint om f0 pbase : R)
    (quark_masses : list (R * R)) (chempots tdomain : list R) (nf : nat) : outcome (list TcRow) :=
  obind (omap (fun mq =>
      let config := FieldConfig_new nc m [(nf, fst mq); (nf, snd mq)] in
      omap (fun mu =>
      obind (ov_tc m renpoint pbase tdomain
        (fun p => Re (qcd_gluon_propagator_l_zero_temp_w_field_config J g om p mu f0 config))
        (fun beta p => Re (qcd_gluon_propagator_l_w_field_config J g om p beta mu f0 config)))
      (fun tc => Ret (nf, [fst mq; snd mq], mu, tc))) chempots) quark_masses)
  (fun l => Ret (concat l)).

(* one_mass_overall.rs 140-281: the loop over nf; the globals keep the last value that was set *)
Fixpoint one_mass_loop (J : Integrator) (g : globals R) (m renpoint om f0 pbase : R)
    (quark_masses chempots tdomain : list R) (nfs : list nat) : outcome (list TcRow) :=
  match nfs with
  | [] => Ret []
  | nf :: nfs' =>
      obind (one_mass_rows J g m renpoint om f0 pbase quark_masses chempots tdomain nf) (fun l =>
      obind (one_mass_loop J (set_number_of_fermions OpsR nf g) m renpoint om f0 pbase quark_masses chempots tdomain nfs') (fun ls =>
      Ret (l ++ ls)))
  end.

(* one_mass_overall.rs 5-282, the rows of tc.out (the first row has zeros for mq and mu) *)
Definition one_mass_main (J : Integrator) (g : globals R) : outcome (list TcRow) :=
  let '(pmin, m, f0, om, renpoint) := (/ 100, 656 / 1000, - (876 / 1000), / 100000, 4) in
  let tdomain := trunc_vec (/ 100) (2 / 10) (5 / 1000) in
  let quark_masses := [8 / 100; 4 / 10; 8 / 10] in
  let chempots := [0; 1/10; 2/10; 3/10; 4/10; 5/10; 6/10; 7/10; 8/10; 9/10; 1] in
  obind (ov_ym_tc J g m renpoint om f0 pmin tdomain) (fun tc =>
  obind (one_mass_loop J g m renpoint om f0 pmin quark_masses chempots tdomain [1; 2; 4; 6]%nat) (fun l =>
  Ret ((0%nat, [0], 0, tc) :: l))).

(* two_masses_overall.rs 6-295 *)
Definition two_masses_main (J : Integrator) (g : globals R) : outcome (list TcRow) :=
  let '(pmin, m, f0, om, renpoint) := (/ 100, 656 / 1000, - (876 / 1000), / 100000, 4) in
  let tdomain := trunc_vec (/ 100) (2 / 10) (5 / 1000) in
  let quark_masses := [(3/10, 4/10); (3/10, 6/10); (8/10, 1); (3/10, 1)] in
  let chempots := [0; 1/10; 2/10; 3/10; 4/10; 5/10; 6/10; 7/10; 8/10; 9/10; 1; 11/10; 12/10] in
  obind (ov_ym_tc J g m renpoint om f0 pmin tdomain) (fun tc =>
  obind (omap (two_masses_rows J g 3 m renpoint om f0 pmin quark_masses chempots tdomain) [1; 4]%nat) (fun l =>
  Ret ((0%nat, [0; 0], 0, tc) :: concat l))).
