(** * Concrete cases for the phase-diagram programs *)
From Coq Require Import Reals List ZArith Lra Lia.
From Coquelicot Require Import Coquelicot.
From Verif Require Import Num MConsts MVacuum MUtils MDress MTc MPhase SpecTc SpecPhase PVac PDress PTc PPhase PPhase2 PPhase3.
Import List ListNotations.
Open Scope R_scope.

Ltac grid n := unfold compute_vec; cbv zeta;
  match goal with |- context [fround ?x] => replace (fround x) with (n%Z) end;
  [cbv [Z.to_nat Pos.to_nat Pos.iter_op Init.Nat.add seq map]; repeat (apply f_equal2; [cbn [INR]; lra|]); reflexivity
  |symmetry; unfold fround; destruct Rle_dec; [apply Int_part_eq; lra|exfalso; lra]].

Lemma grid_12 : compute_vec (1, 2, 1) = [1; 2].
Proof. grid 1%Z. Qed.
Lemma grid_02 : compute_vec (0, 2, 1) = [0; 1; 2].
Proof. grid 2%Z. Qed.
Lemma grid_04 : compute_vec (0, 4, 1) = [0; 1; 2; 3; 4].
Proof. grid 4%Z. Qed.
Lemma grid_03 : compute_vec (0, 3, 1) = [0; 1; 2; 3].
Proof. grid 3%Z. Qed.
Lemma grid_00 : compute_vec (0, 0, 1) = [0].
Proof. grid 0%Z. Qed.
Lemma grid_few : compute_vec (0, 8 / 10, / 10) = [0; 1/10; 2/10; 3/10; 4/10; 5/10; 6/10; 7/10; 8/10].
Proof. grid 8%Z. Qed.

(** Propagators 1/(1+p^2) at zero temperature, and one with a maximum at t = 1 in the infrared. *)
Definition toy0 (om p mu f0 : R) (fc : FieldConfig) : C := RtoC (/ (1 + p * p)).
Definition toy1 (om p beta mu f0 : R) (fc : FieldConfig) : C := RtoC (1 + (2 - p) * / beta * (2 - / beta)).
Definition toyone (om p mu f0 : R) (fc : FieldConfig) : C := RtoC 1.
Definition toy_cfg : Config := Config_new (0, 2, 1) (0, 4, 1) (1, 2, 1) 0 2 0 (FieldConfig_new 3 1 []).

Lemma ex_table : compute_propagators toy0 (fun om p _ mu f0 fc => toy0 om p mu f0 fc)
    (Config_new (0, 0, 1) (0, 0, 1) (1, 2, 1) 0 2 0 (FieldConfig_new 3 1 [])) =
  Ret [[mkOutFile 0 0 [(1, 5 / 8); (2, 1 / 4)]]].
Proof.
  unfold compute_propagators, Config_new. rewrite !grid_00, grid_12.
  unfold propagator_files_at, curve_zero, maybe_corrected_data, renfac, toy0.
  cbn [omap obind cfg_chempots cfg_temps cfg_momenta cfg_fieldconfig cfg_correctedfieldconfig cfg_correctedf0 cfg_f0 cfg_phase_boundary cfg_renpoint cfg_renpoint2 cfg_om map skipn combine].
  rewrite !fc_gluon_new. cbn [Re RtoC fst].
  apply f_equal. apply f_equal2; [|reflexivity]. apply f_equal2; [|reflexivity]. apply f_equal.
  apply f_equal2; [apply f_equal2; [lra|field]|]. apply f_equal2; [apply f_equal2; [lra|field]|reflexivity].
Qed.

Lemma toy_ir mu : ir_values toyone toy1 toy_cfg mu = Ret [1 / 4; 2 / 4; 1 / 4].
Proof.
  unfold ir_values, toy_cfg, Config_new. rewrite grid_02, grid_12.
  unfold maybe_corrected_data, renfac, toyone, toy1.
  cbn [omap obind cfg_chempots cfg_temps cfg_momenta cfg_fieldconfig cfg_correctedfieldconfig cfg_correctedf0 cfg_f0 cfg_phase_boundary cfg_renpoint cfg_renpoint2 cfg_pbase cfg_om map skipn combine fst].
  rewrite !fc_gluon_new. cbn [Re RtoC fst].
  apply f_equal. repeat (apply f_equal2; [field|]). reflexivity.
Qed.
Lemma toy_tc : find_critical_temperature [0; 1; 2] [1 / 4; 2 / 4; 1 / 4] = Ret 1.
Proof.
  unfold find_critical_temperature, find_critical_temperature_gen. cbn [combine skipn fct_loop].
  rewrite (proj2 (Rgtb_true (2 / 4) (1 / 4))) by lra. rewrite (proj2 (Rgtb_false (1 / 4) (2 / 4))) by lra. reflexivity.
Qed.
Lemma ex_boundary : compute_phase_diagram toyone toy1 toy_cfg = Ret ([(0, 1); (1, 1); (2, 1); (3, 1); (4, 1)], [(2, 0)]).
Proof.
  unfold compute_phase_diagram, critical_temperatures.
  assert (E1 : cfg_chempots toy_cfg = [0; 1; 2; 3; 4]) by (unfold toy_cfg, Config_new; cbn [cfg_chempots]; apply grid_04).
  assert (E2 : cfg_temps toy_cfg = [0; 1; 2]) by (unfold toy_cfg, Config_new; cbn [cfg_temps]; apply grid_02).
  rewrite E1, E2. cbn [omap]. rewrite !toy_ir. cbn [obind]. rewrite toy_tc. cbn [obind].
  unfold second_differences, oidx, D2W. cbn [nth_error obind length Nat.ltb Nat.leb Nat.mul Nat.add Nat.sub seq omap combine].
  apply f_equal. apply f_equal2; [reflexivity|]. apply f_equal2; [|reflexivity]. apply f_equal2; [reflexivity|]. cbn [INR]. field.
Qed.
Lemma ex_too_few : compute_phase_diagram toyone toy1 (Config_new (0, 2, 1) (0, 2, 1) (1, 2, 1) 0 2 0 (FieldConfig_new 3 1 [])) = Panic.
Proof.
  apply diagram_panic.
  - unfold Config_new. cbn [cfg_temps]. rewrite grid_02. discriminate.
  - left. unfold Config_new. cbn [cfg_chempots]. rewrite grid_02. cbn. lia.
Qed.

Lemma ex_second : second_differences [0; 1; 2; 3; 4; 5] [25; 24; 21; 16; 9; 0] = Ret [(2, -2); (3, -2)].
Proof.
  unfold second_differences, oidx, D2W. cbn [nth_error obind length Nat.ltb Nat.leb Nat.mul Nat.add Nat.sub seq omap].
  apply f_equal. repeat (apply f_equal2; [apply f_equal2; [reflexivity|cbn [INR]; field]|]). reflexivity.
Qed.

(** The defaults of the program give distinct names. *)
Lemma ex_names J g rd files : nearest rd ->
  let d := default_input in
  compute_propagators (prop_l0 J g) (prop_l J g)
    (Config_new (in_fewtemps d) (in_fewchempots d) (in_momenta d) (in_om d) (in_renpoint d) (in_f0 d)
       (FieldConfig_new 3 (in_mg d) [(2%nat, 35 / 100); (1%nat, 45 / 100)])) = Ret files ->
  NoDup (map (fname rd) (concat files)).
Proof.
  intros Hr d H.
  refine (files_distinct (prop_l0 J g) (prop_l J g) rd (in_fewtemps d) (in_fewchempots d) (in_momenta d) (in_om d) (in_renpoint d) (in_f0 d)
    (FieldConfig_new 3 (in_mg d) [(2%nat, 35 / 100); (1%nat, 45 / 100)]) [] _ files 0 (1758 / 10000) (293 / 10000) 0 (8 / 10) (/ 10) Hr _ _ _ _ _ _ H); try lra; reflexivity.
Qed.

Lemma ex_trunc : length (trunc_vec (/ 100) (2 / 10) (5 / 1000)) = 39%nat /\ length (trunc_vec (/ 100) 3 (/ 100)) = 300%nat.
Proof.
  split.
  - replace (2 / 10) with (/ 100 + 5 / 1000 * INR 38) by (rewrite INR_IZR_INZ; cbn; lra). apply (trunc_exact (/ 100) 38); lra.
  - replace 3 with (/ 100 + / 100 * INR 299) at 1 by (rewrite INR_IZR_INZ; cbn; lra). apply (trunc_exact (/ 100) 299); lra.
Qed.


Lemma ex_critical : table_keys 2 [[8 / 100]; [4 / 10]] [0; 1] =
  [(2%nat, [8 / 100], 0); (2%nat, [8 / 100], 1); (2%nat, [4 / 10], 0); (2%nat, [4 / 10], 1)] /\
  critical_at 1 2 1 [1; 2] (fun _ => 1) (fun t p => 1 + (2 - p) * t * (2 - t)) 1.
Proof.
  split; [reflexivity|]. unfold critical_at, normalised. cbn [map].
  replace (1 ^ 2 / 2 ^ 2 * (1 / 1)) with (1 / 4) by field.
  replace (1 ^ 2 / 2 ^ 2 * ((1 + (2 - 1 * 1) * 1 * (2 - 1)) / (1 + (2 - 2) * 1 * (2 - 1)))) with (2 / 4) by field.
  replace (1 ^ 2 / 2 ^ 2 * ((1 + (2 - 1 * 1) * 2 * (2 - 2)) / (1 + (2 - 2) * 2 * (2 - 2)))) with (1 / 4) by field.
  destruct (fct_correct [0; 1; 2] [1 / 4; 2 / 4; 1 / 4]) as (t & E & A); try discriminate. rewrite toy_tc in E. inversion E; subst. exact A.
Qed.
Lemma ex_agree J g : exists rows,
  two_masses_rows J g (g_nc g) 1 4 0 0 1 [(1 / 2, 1 / 2)] [0] [1] 1 = Ret rows /\
  exists tc, rows = [(1%nat, [1 / 2; 1 / 2], 0, tc)] /\
    one_mass_rows J g 1 4 0 0 1 [1 / 2] [0] [1] 2 = Ret [(2%nat, [1 / 2], 0, tc)].
Proof.
  destruct (two_masses_rows_total J g (g_nc g) 1 4 0 0 1 [(1 / 2, 1 / 2)] [0] [1] 1) as (rows & E). exists rows. split; [exact E|].
  pose proof (two_masses_spec J g (g_nc g) 1 4 0 0 1 [(1 / 2, 1 / 2)] [0] [1] 1 rows ltac:(lra) ltac:(lra) E) as [K _].
  pose proof (programs_agree J g 1 4 0 0 1 [1 / 2] [0] [1] 1 rows E) as A. clear E.
  destruct rows as [|[[[n ms] mu] tc] [|? ?]]; try discriminate. injection K as K1 K2 K3. subst. exists tc. split; [reflexivity|]. exact A.
Qed.
