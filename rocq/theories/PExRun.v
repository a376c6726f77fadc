(** * Concrete cases for runs of the phase-diagram program *)
From Coq Require Import Reals List ZArith Lra Lia Sorted.
From Coquelicot Require Import Coquelicot.
From Verif Require Import Num MConsts MVacuum MUtils MDress MTc MPhase SpecTc SpecPhase SpecRun PVac PDress PTc PPhase PPhase2 PPhase3 PExPhase PRun PRun2.
Import List ListNotations.
Open Scope R_scope.

(** A propagator that grows with temperature for quarks of mass 1 and is constant for quarks of mass 1/2. *)
Definition toy2 (om p beta mu f0 : R) (fc : FieldConfig) : C := RtoC (1 + (2 - p) * / beta * (2 * snd (hd (0%nat, 0) (fc_quarks fc)) - 1)).
Definition toy_in : InputData := mkInputData 1 0 2 (1, 1, 1) (1 / 2, 1 / 2, 1 / 2) 0 (0, 2, 1) (0, 2, 1) (0, 2, 1) (0, 3, 1) (0, 3, 1) (0, 3, 1) (1, 2, 1).
Definition toy_c : Config := fresh toy_in (in_mq toy_in) (0, 2, 1) (0, 3, 1).
Definition toy_pb : list (R * R) := [(0, 2); (1, 2); (2, 2); (3, 2)].
Definition toy_cc : Config := corr toy_in toy_pb (0, 2, 1) (0, 3, 1).

Lemma toy_deconf mu t : 0 < mu -> (t = 2 -> is_deconfined_phase mu t toy_pb = Ret true).
Proof.
  intros Hm ->. unfold is_deconfined_phase, toy_pb. cbn [reduce_phase_boundary]. destruct (Req_EM_T 2 0); [lra|]. destruct (Rlt_dec mu 0); [lra|].
  destruct (Req_EM_T mu 0); [lra|]. cbn [scan_boundary]. destruct (Req_EM_T 0 mu); [lra|]. destruct (Req_EM_T 2 2); [|lra]. destruct (Rlt_dec 0 mu); [reflexivity|lra].
Qed.
Lemma toy_conf mu t : In mu [0; 1; 2; 3] -> t < 2 \/ mu = 0 /\ t <= 2 -> is_deconfined_phase mu t toy_pb = Ret false.
Proof.
  intros Hm Ht. unfold is_deconfined_phase, toy_pb. cbn [reduce_phase_boundary]. destruct (Req_EM_T 2 0); [lra|]. cbn [last fst].
  destruct (Rlt_dec mu 0); [cbn [In] in Hm; lra|]. destruct (Req_EM_T t 0); [destruct (Rlt_dec 3 mu); [cbn [In] in Hm; lra|reflexivity]|].
  destruct (Req_EM_T mu 0) as [->|].
  - destruct (Req_EM_T 0 0); [|lra]. destruct (Rlt_dec 2 t); [lra|reflexivity].
  - assert (t < 2) by lra. cbn [scan_boundary]. destruct (Req_EM_T 2 t); [lra|]. destruct (Rlt_dec 2 t); [lra|].
    cbn [In] in Hm. destruct Hm as [<-|[<-|[<-|[<-|[]]]]];
    repeat match goal with |- context [Req_EM_T ?a ?b] => destruct (Req_EM_T a b); try reflexivity; try lra | |- context [Rlt_dec ?a ?b] => destruct (Rlt_dec a b); try reflexivity; try lra end.
Qed.
Tactic Notation "toy_data" tactic1(D) := unfold ir_values, toy_c, toy_cc; change (cfg_temps (fresh toy_in (in_mq toy_in) (0, 2, 1) (0, 3, 1))) with (compute_vec (0, 2, 1)); change (cfg_temps (corr toy_in toy_pb (0, 2, 1) (0, 3, 1))) with (compute_vec (0, 2, 1)); rewrite grid_02; cbn [obind omap skipn]; D; cbn [obind omap skipn];
  unfold renfac; cbn [fresh corr Config_new cfg_om cfg_renpoint cfg_renpoint2 cfg_pbase cfg_fieldconfig fst snd in_momenta in_om in_renpoint in_mq in_mqc in_mg toy_in fcm qs FieldConfig_new fc_gluon fc_quarks hd toyone toy2 RtoC Re];
  apply f_equal; repeat (apply f_equal2; [unfold toyone, toy2; cbn [RtoC Re fst snd fc_quarks hd]; field|]); reflexivity.
Lemma toy_plain mu : ir_values toyone toy2 toy_c mu = Ret [1 / 4; 2 / 4; 3 / 4].
Proof. toy_data (rewrite !data_fresh). Qed.
Lemma toy_corr0 : ir_values toyone toy2 toy_cc 0 = Ret [1 / 4; 2 / 4; 3 / 4].
Proof.
  assert (D : forall t, t <= 2 -> maybe_corrected_data toy_cc 0 t = Ret (fcm toy_in (in_mq toy_in), config_f0 (in_f0 toy_in) (fcm toy_in (in_mq toy_in)))).
  { intros t Ht. unfold toy_cc. rewrite data_conf; [reflexivity|]. apply toy_conf; [cbn; auto|auto]. }
  toy_data (rewrite !(D : forall t, t <= 2 -> maybe_corrected_data (corr toy_in toy_pb (0, 2, 1) (0, 3, 1)) 0 t = _) by lra).
Qed.
Lemma toy_pos : positive_masses toy_in.
Proof. unfold positive_masses. cbn. lra. Qed.
Lemma toy_corr mu : In mu [1; 2; 3] -> ir_values toyone toy2 toy_cc mu = Ret [1 / 4; 2 / 4; 1 / 4].
Proof.
  intros Hm. assert (D : forall t, t < 2 -> maybe_corrected_data (corr toy_in toy_pb (0, 2, 1) (0, 3, 1)) mu t = Ret (fcm toy_in (in_mq toy_in), config_f0 (in_f0 toy_in) (fcm toy_in (in_mq toy_in)))).
  { intros t Ht. rewrite data_conf; [reflexivity|]. apply toy_conf; [right; exact Hm|auto]. }
  assert (D2 : maybe_corrected_data (corr toy_in toy_pb (0, 2, 1) (0, 3, 1)) mu 2 = Ret (fcm toy_in (in_mqc toy_in), config_f0 (in_f0 toy_in) (fcm toy_in (in_mqc toy_in)))).
  { rewrite data_deconf; [reflexivity|apply toy_pos|]. apply toy_deconf; auto. cbn [In] in Hm. lra. }
  toy_data (rewrite D2, !D by lra).
Qed.
Lemma fct3 a b c : find_critical_temperature [0; 1; 2] [a; b; c] = Ret (if Rlt_dec a b then (if Rlt_dec b c then 2 else 1) else (if Rlt_dec a c then 2 else 0)).
Proof. unfold find_critical_temperature, find_critical_temperature_gen, Rgtb. cbn [combine skipn fct_loop]. destruct (Rlt_dec a b); [destruct (Rlt_dec b c)|destruct (Rlt_dec a c)]; reflexivity. Qed.
Lemma toy_b : compute_phase_diagram toyone toy2 toy_c = Ret (toy_pb, []).
Proof.
  unfold compute_phase_diagram, critical_temperatures. change (cfg_chempots toy_c) with (compute_vec (0, 3, 1)). change (cfg_temps toy_c) with (compute_vec (0, 2, 1)). rewrite grid_02, grid_03.
  cbn [omap]. rewrite !toy_plain. cbn [obind]. rewrite fct3. destruct (Rlt_dec (1 / 4) (2 / 4)); [|lra]. destruct (Rlt_dec (2 / 4) (3 / 4)); [|lra]. cbn [obind]. reflexivity.
Qed.
Lemma toy_cb : compute_phase_diagram toyone toy2 toy_cc = Ret ([(0, 2); (1, 1); (2, 1); (3, 1)], []).
Proof.
  unfold compute_phase_diagram, critical_temperatures. change (cfg_chempots toy_cc) with (compute_vec (0, 3, 1)). change (cfg_temps toy_cc) with (compute_vec (0, 2, 1)). rewrite grid_02, grid_03.
  cbn [omap]. rewrite toy_corr0, !toy_corr by (cbn [In]; auto). cbn [obind]. rewrite !fct3. destruct (Rlt_dec (1 / 4) (2 / 4)); [|lra]. destruct (Rlt_dec (2 / 4) (3 / 4)); [|lra]. destruct (Rlt_dec (2 / 4) (1 / 4)); [lra|]. cbn [obind]. reflexivity.
Qed.
Lemma toy_set : exists c1, set_correctedfieldconfig (Some (fcm toy_in (in_mqc toy_in))) toy_c = Ret c1 /\ set_phase_boundary (Some toy_pb) c1 = toy_cc.
Proof. eexists. split; [reflexivity|reflexivity]. Qed.
Lemma toy_weak : weakly_falling toy_pb.
Proof. unfold weakly_falling, toy_pb. repeat (constructor; [|repeat constructor; cbn [fst snd]; lra]). constructor. Qed.

Lemma plateau_refuted : exists P0 P c cfc c1 pb d2 pb' d2' mu tc tc',
  compute_phase_diagram P0 P c = Ret (pb, d2) /\ set_correctedfieldconfig (Some cfc) c = Ret c1 /\
  compute_phase_diagram P0 P (set_phase_boundary (Some pb) c1) = Ret (pb', d2') /\
  weakly_falling pb /\ Forall (fun x => snd x <> 0) pb /\ In (mu, tc) pb /\ In (mu, tc') pb' /\ tc' < tc.
Proof.
  destruct toy_set as (c1 & S1 & S2). exists toyone, toy2, toy_c, (fcm toy_in (in_mqc toy_in)), c1, toy_pb, [], [(0, 2); (1, 1); (2, 1); (3, 1)], [], 1, 2, 1.
  split; [apply toy_b|]. split; [exact S1|]. rewrite S2. split; [apply toy_cb|]. split; [apply toy_weak|]. split; [repeat constructor; cbn [snd]; lra|].
  split; [right; left; reflexivity|]. split; [right; left; reflexivity|lra].
Qed.

(** A propagator whose infrared maximum moves to lower temperatures with the chemical potential for quarks of mass 1,
    and which is large at any temperature for quarks of mass 1/2. *)
Definition toy3 (om p beta mu f0 : R) (fc : FieldConfig) : C :=
  let t := / beta in let mq := snd (hd (0%nat, 0) (fc_quarks fc)) in RtoC (1 + (2 - p) * ((2 * t * (2 - mu) - t * t) * (2 * mq - 1) + 10 * (2 - 2 * mq))).
Definition fall_full : list (R * R) := [(0, 2); (1, 1); (2, 0); (3, 0)].
Definition fall_pb : list (R * R) := [(0, 2); (1, 1)].
Definition fall_cc : Config := corr toy_in fall_full (0, 2, 1) (0, 3, 1).
Lemma fall_ir mu : ir_values toyone toy3 toy_c mu = Ret [1 / 4; (1 + (2 * (2 - mu) - 1)) / 4; (1 + (4 * (2 - mu) - 4)) / 4].
Proof.
  unfold ir_values, toy_c. change (cfg_temps (fresh toy_in (in_mq toy_in) (0, 2, 1) (0, 3, 1))) with (compute_vec (0, 2, 1)). rewrite grid_02. cbn [obind omap skipn]. rewrite !data_fresh. cbn [obind omap skipn].
  unfold renfac; cbn [fresh corr Config_new cfg_om cfg_renpoint cfg_renpoint2 cfg_pbase cfg_fieldconfig fst snd in_momenta in_om in_renpoint in_mq in_mqc in_mg toy_in fcm qs FieldConfig_new fc_gluon fc_quarks hd].
  apply f_equal; repeat (apply f_equal2; [unfold toyone, toy3, fcm, qs, FieldConfig_new; cbn [RtoC Re fst snd fc_quarks hd]; cbv zeta; field|]); reflexivity.
Qed.
Lemma fall_b : compute_phase_diagram toyone toy3 toy_c = Ret (fall_full, []).
Proof.
  unfold compute_phase_diagram, critical_temperatures. change (cfg_chempots toy_c) with (compute_vec (0, 3, 1)). change (cfg_temps toy_c) with (compute_vec (0, 2, 1)). rewrite grid_02, grid_03.
  cbn [omap]. rewrite !fall_ir. cbn [obind]. rewrite !fct3.
  repeat match goal with |- context [Rlt_dec ?a ?b] => destruct (Rlt_dec a b); try (exfalso; lra) end. reflexivity.
Qed.
Lemma fall_cut : cut_at_zero fall_full fall_pb.
Proof. exists [(2, 0); (3, 0)]. split; [reflexivity|]. split; [repeat constructor; cbn [snd]; lra|]. right. eauto. Qed.
Lemma fall_falling : falling fall_pb.
Proof. unfold falling, fall_pb. repeat (constructor; [|repeat constructor; cbn [fst snd]; lra]). constructor. Qed.
Lemma fall_phase mu t b : In mu [0; 1; 2; 3] -> In t [0; 1; 2] -> (b = true <-> mu = 1 /\ t = 2 \/ 1 < mu) -> is_deconfined_phase mu t fall_full = Ret b.
Proof.
  intros Hm Ht Hb. assert (Z : b = if Rlt_dec 1 mu then true else if Req_EM_T mu 1 then if Req_EM_T t 2 then true else false else false).
  { destruct (Rlt_dec 1 mu); [apply Hb; auto|]. destruct (Req_EM_T mu 1); [destruct (Req_EM_T t 2)|]; [apply Hb; auto| |]; destruct b; auto; destruct (proj1 Hb eq_refl) as [[]|]; lra. }
  rewrite Z. clear Hb Z b. unfold is_deconfined_phase, fall_full. cbn [reduce_phase_boundary]. destruct (Req_EM_T 2 0); [lra|]. destruct (Req_EM_T 1 0); [lra|]. destruct (Req_EM_T 0 0); [|lra]. cbn [last fst scan_boundary].
  cbn [In] in Hm, Ht. destruct Hm as [<-|[<-|[<-|[<-|[]]]]]; destruct Ht as [<-|[<-|[<-|[]]]];
    repeat match goal with |- context [Req_EM_T ?a ?b] => destruct (Req_EM_T a b); try reflexivity; try lra | |- context [Rlt_dec ?a ?b] => destruct (Rlt_dec a b); try reflexivity; try lra end.
Qed.
Lemma fall_data mu t : In mu [0; 1; 2; 3] -> In t [0; 1; 2] -> maybe_corrected_data fall_cc mu t =
  if Rlt_dec 1 mu then Ret (fcm toy_in (in_mqc toy_in), config_f0 (in_f0 toy_in) (fcm toy_in (in_mqc toy_in)))
  else if Req_EM_T mu 1 then if Req_EM_T t 2 then Ret (fcm toy_in (in_mqc toy_in), config_f0 (in_f0 toy_in) (fcm toy_in (in_mqc toy_in))) else Ret (fcm toy_in (in_mq toy_in), config_f0 (in_f0 toy_in) (fcm toy_in (in_mq toy_in)))
  else Ret (fcm toy_in (in_mq toy_in), config_f0 (in_f0 toy_in) (fcm toy_in (in_mq toy_in))).
Proof.
  intros Hm Ht. unfold fall_cc. destruct (Rlt_dec 1 mu); [|destruct (Req_EM_T mu 1); [destruct (Req_EM_T t 2)|]].
  - rewrite data_deconf; [reflexivity|apply toy_pos|]. apply fall_phase; auto. tauto.
  - rewrite data_deconf; [reflexivity|apply toy_pos|]. apply fall_phase; auto. tauto.
  - rewrite data_conf; [reflexivity|]. apply fall_phase; auto. split; [discriminate|tauto].
  - rewrite data_conf; [reflexivity|]. apply fall_phase; auto. split; [discriminate|tauto].
Qed.
Lemma fall_cir mu : In mu [0; 1; 2; 3] -> ir_values toyone toy3 fall_cc mu = Ret [1 / 4; if Rlt_dec 1 mu then 11 / 4 else (1 + (2 * (2 - mu) - 1)) / 4; if Rlt_dec 1 mu then 11 / 4 else if Req_EM_T mu 1 then 11 / 4 else (1 + (4 * (2 - mu) - 4)) / 4].
Proof.
  intros Hm. unfold ir_values. change (cfg_temps fall_cc) with (compute_vec (0, 2, 1)). rewrite grid_02. cbn [obind omap skipn]. rewrite !fall_data by (auto; cbn [In]; auto).
  destruct (Req_EM_T 0 2); [lra|]. destruct (Req_EM_T 1 2); [lra|]. destruct (Req_EM_T 2 2); [|lra].
  destruct (Rlt_dec 1 mu); [|destruct (Req_EM_T mu 1)]; cbn [obind omap skipn]; unfold renfac, fall_cc; cbn [fresh corr Config_new cfg_om cfg_renpoint cfg_renpoint2 cfg_pbase cfg_fieldconfig fst snd in_momenta in_om in_renpoint in_mq in_mqc in_mg toy_in fcm qs FieldConfig_new fc_gluon fc_quarks hd];
  apply f_equal; repeat (apply f_equal2; [unfold toyone, toy3, fcm, qs, FieldConfig_new; cbn [RtoC Re fst snd fc_quarks hd]; cbv zeta; field|]); reflexivity.
Qed.
Lemma fall_cb : compute_phase_diagram toyone toy3 fall_cc = Ret ([(0, 2); (1, 2); (2, 1); (3, 1)], []).
Proof.
  unfold compute_phase_diagram, critical_temperatures. change (cfg_chempots fall_cc) with (compute_vec (0, 3, 1)). change (cfg_temps fall_cc) with (compute_vec (0, 2, 1)). rewrite grid_02, grid_03.
  cbn [omap]. rewrite !fall_cir by (cbn [In]; auto). cbn [obind]. rewrite !fct3.
  repeat match goal with |- context [Rlt_dec 1 ?b] => destruct (Rlt_dec 1 b); try (exfalso; lra) | |- context [Req_EM_T ?a ?b] => destruct (Req_EM_T a b); try (exfalso; lra) end.
  repeat match goal with |- context [Rlt_dec ?a ?b] => destruct (Rlt_dec a b); try (exfalso; lra) end. reflexivity.
Qed.
Lemma ex_run : exists c1, set_correctedfieldconfig (Some (fcm toy_in (in_mqc toy_in))) toy_c = Ret c1 /\
  compute_phase_diagram toyone toy3 toy_c = Ret ([(0, 2); (1, 1); (2, 0); (3, 0)], []) /\
  compute_phase_diagram toyone toy3 (set_phase_boundary (Some [(0, 2); (1, 1); (2, 0); (3, 0)]) c1) = Ret ([(0, 2); (1, 2); (2, 1); (3, 1)], []) /\
  cut_at_zero [(0, 2); (1, 1); (2, 0); (3, 0)] [(0, 2); (1, 1)] /\ falling [(0, 2); (1, 1)].
Proof. eexists. split; [reflexivity|]. split; [exact fall_b|]. split; [exact fall_cb|]. split; [exact fall_cut|exact fall_falling]. Qed.

(** Any program run with a fine grid of the single temperature 1 succeeds. *)
Definition one_temp : InputData := mkInputData 1 (/ 1000) 4 (1, 2, 3) (1 / 2, 1, 3) 0 (0, 2, 1) (0, 2, 1) (1, 1, 1) (0, 3, 1) (0, 3, 1) (0, 3, 1) (1, 2, 1).
Lemma grid_11 : compute_vec (1, 1, 1) = [1].
Proof. grid 0%Z. Qed.
Lemma ex_succeeds J g : positive_masses one_temp /\ exists out, physical_tc_main J g (fun pb => Ret (map snd pb)) one_temp = Ret out /\ po_fit out = [1; 1; 1; 1].
Proof.
  split; [unfold positive_masses; cbn; lra|].
  assert (B : forall pb d2, compute_phase_diagram (prop_l0 J g) (prop_l J g) (physical_start J g one_temp) = Ret (pb, d2) -> pb = [(0, 1); (1, 1); (2, 1); (3, 1)]).
  { intros pb d2 E. apply nth_ext'. pose proof (diagram_ret _ _ _ _ _ E) as (L & M & _). change (cfg_chempots (physical_start J g one_temp)) with (compute_vec (0, 3, 1)) in L, M. rewrite grid_03 in L, M.
    intros i. destruct (nth_error pb i) as [[mu tc]|] eqn:H.
    - destruct (diagram_nth _ _ _ _ _ _ _ _ E H) as (Z & vals & V & T). change (cfg_temps (physical_start J g one_temp)) with (compute_vec (1, 1, 1)) in T. change (cfg_chempots (physical_start J g one_temp)) with (compute_vec (0, 3, 1)) in Z. rewrite grid_03 in Z. rewrite grid_11 in T.
      assert (tc = 1). { destruct vals as [|v vals]; [discriminate|]. unfold find_critical_temperature, find_critical_temperature_gen in T. cbn [combine skipn fct_loop] in T. now injection T as <-. } subst tc.
      do 4 (destruct i as [|i]; [cbn [nth_error] in Z; injection Z as <-; reflexivity|]). destruct i; discriminate.
    - apply nth_error_None in H. rewrite L in H. cbn [length] in H. symmetry. apply nth_error_None. exact H. }
  destruct (physical_tc_main J g (fun pb => Ret (map snd pb)) one_temp) as [|out] eqn:E.
  - exfalso. apply main_panic in E. change (in_manychempots one_temp) with (0, 3, 1) in E. change (in_fewchempots one_temp) with (0, 3, 1) in E. rewrite grid_03 in E. destruct E as [E|(pb & d2 & E & [Z|[(mu & I & Z)|Z]])].
    + cbn in E. lia.
    + rewrite (B _ _ E) in Z. cbn in Z. lra.
    + cbn [hd In] in *. lra.
    + discriminate.
  - exists out. split; auto. apply main_ret in E. destruct E as (_ & _ & _ & E4 & _ & E6 & _). pose proof (B _ _ E4 : po_boundary out = _) as Q. rewrite Q in E6. cbn [reduce_phase_boundary] in E6. destruct (Req_EM_T 1 0); [lra|]. cbn [map snd] in E6. now injection E6.
Qed.
