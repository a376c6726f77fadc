(** * Proofs about the plotting programs: polarizations, integrands, hard thermal loops *)
From Coq Require Import Reals List Lra Lia ZArith.
From Coquelicot Require Import Coquelicot.
From Verif Require Import Num MCommon MConsts MUtils MVacuum MThermal MPolar MDress MQuark MPhase MHtl MProg SpecLim SpecInt SpecInteg SpecCold SpecHtl SpecHot SpecProg
  PLim PLimC PInt PCold PBound PColdG PColdI PFermi PColdQ PColdFin PColdLim PQuark PZMom4 PHtl2 PHtl4 PHot2 PHotB6 PHotB8 PProg PProg2.
Import List ListNotations.
Open Scope R_scope.

Lemma map_curve (f : R -> R -> R) (h : R -> R) l : Forall (fun x => tends (at_right 0) (fun t => f t x) (h x)) l ->
  curves_tend (at_right 0) (fun t => map (f t) l) (map h l) (length l).
Proof.
  intros H. split; [apply map_length|]. intros i Hi.
  assert (N : forall k : R -> R, nth i (map k l) 0 = k (nth i l 0)).
  { intros k. rewrite (nth_indep _ 0 (k 0)) by (rewrite map_length; auto). apply map_nth. }
  rewrite N. eapply tends_ext; [|exact (proj1 (Forall_forall _ _) H (nth i l 0) (nth_In _ _ Hi))]. apply filter_forall. intros t. now rewrite N.
Qed.

(** ** qcd_gluon_polarization_quark.rs *)
Lemma polarization_program_eq J g momenta :
  let '(pt, pl) := polarization_program J g momenta in
  pl_domain pt = momenta /\ pl_domain pl = momenta /\ pl_legends pt = gp_temperatures ++ [0] /\ pl_legends pl = gp_temperatures ++ [0] /\
  firstn 6 (pl_images pt) = map (pol_curve J g momenta false) gp_temperatures /\ firstn 6 (pl_images pl) = map (pol_curve J g momenta true) gp_temperatures /\
  length (pl_images pt) = 7%nat /\ length (pl_images pl) = 7%nat.
Proof.
  unfold polarization_program, low_temperatures. cbv zeta. cbn [pl_domain pl_legends pl_images map app firstn length gp_temperatures].
  replace (12 / 10) with 1.2 by lra.
  replace (100 / 1000) with 0.1 by lra. replace (75 / 1000) with 0.075 by lra. replace (50 / 1000) with 0.05 by lra.
  replace (25 / 1000) with 0.025 by lra. replace (10 / 1000) with 0.01 by lra. replace (5 / 1000) with 0.005 by lra.
  unfold pol_curve, get_matsubara_reg, get_default_quark_mass, Rdiv. rewrite !Rmult_1_l. repeat split.
Qed.
Lemma polarization_limit J g momenta : exact_integrator J -> (0 < g_nc g)%nat -> g_matsubara_reg g <> 0 -> Forall (fun p => 0 < p) momenta ->
  let '(pt, pl) := polarization_program J g momenta in
  curves_tend (at_right 0) (pol_curve J g momenta false) (nth 6 (pl_images pt) []) (length momenta) /\
  curves_tend (at_right 0) (pol_curve J g momenta true) (nth 6 (pl_images pl) []) (length momenta).
Proof.
  intros HJ Hn Hr Hp. unfold polarization_program, low_temperatures. cbv zeta. cbn [pl_images map app nth].
  replace (12 / 10) with 1.2 by lra. unfold pol_curve, get_matsubara_reg, get_default_quark_mass.
  split; apply map_curve; eapply Forall_impl; [|exact Hp| |exact Hp]; intros p Hp0; cbn beta.
  all: pose proof (cold_C_ok J g (g_m_quark g) 1.2 (get_default_integration_method g) HJ Hn (g_matsubara_reg g) Hr p 1 Hp0 ltac:(lra)) as H; unfold cold_C in H;
    do 13 apply Forall_cons_iff in H as [_ H]; apply Forall_cons_iff in H as [HL H]; apply Forall_cons_iff in H as [_ H]; apply Forall_cons_iff in H as [HT _];
    cbn [fst snd] in HL, HT; destruct HL as [HL _], HT as [HT _]; apply T_to_0 in HL, HT; first [exact HT|exact HL].
Qed.

(** ** qcd_gluon_polarization_quark_integrand.rs *)
Lemma integrand_program_eq g qs :
  let c := integrand_curve (g_nc g) (g_matsubara_reg g) (g_m_quark g) 1.2 qs in
  let '(pt, pl) := integrand_program g qs in
  Forall2 (fun p P => pl_domain P = qs /\ pl_legends P = gp_temperatures ++ [0] /\ length (pl_images P) = 7%nat /\ firstn 6 (pl_images P) = map (c false p) gp_temperatures) [0.4; 1.2] pt /\
  Forall2 (fun p P => pl_domain P = qs /\ pl_legends P = gp_temperatures ++ [0] /\ length (pl_images P) = 7%nat /\ firstn 6 (pl_images P) = map (c true p) gp_temperatures) [0.4; 1.2] pl.
Proof.
  unfold integrand_program, low_temperatures. cbv zeta. cbn [map app gp_temperatures].
  replace (12 / 10) with 1.2 by lra. replace (4 / 10) with 0.4 by lra.
  replace (100 / 1000) with 0.1 by lra. replace (75 / 1000) with 0.075 by lra. replace (50 / 1000) with 0.05 by lra.
  replace (25 / 1000) with 0.025 by lra. replace (10 / 1000) with 0.01 by lra. replace (5 / 1000) with 0.005 by lra.
  unfold integrand_curve, get_matsubara_reg, get_default_quark_mass, get_number_of_colors, Rdiv. rewrite !Rmult_1_l.
  split; (apply Forall2_cons; [|apply Forall2_cons; [|apply Forall2_nil]]); cbn [pl_domain pl_legends pl_images firstn length]; (split; [reflexivity|split; [reflexivity|split; reflexivity]]).
Qed.
Lemma integrand_limit g qs : Forall (fun q => sqrt (g_m_quark g * g_m_quark g + q * q) <> 1.2) qs ->
  let c := integrand_curve (g_nc g) (g_matsubara_reg g) (g_m_quark g) 1.2 qs in
  let '(pt, pl) := integrand_program g qs in
  Forall2 (fun p P => curves_tend (at_right 0) (c false p) (nth 6 (pl_images P) []) (length qs)) [0.4; 1.2] pt /\
  Forall2 (fun p P => curves_tend (at_right 0) (c true p) (nth 6 (pl_images P) []) (length qs)) [0.4; 1.2] pl.
Proof.
  intros Hq. unfold integrand_program, low_temperatures. cbv zeta. cbn [map app].
  replace (12 / 10) with 1.2 by lra. replace (4 / 10) with 0.4 by lra.
  unfold integrand_curve, get_matsubara_reg, get_default_quark_mass, get_number_of_colors.
  assert (X : forall q p, sqrt (g_m_quark g * g_m_quark g + q * q) <> 1.2 ->
    tends (at_right 0) (fun t => Re (polarization_quark_l_thermal_part_landau_i (g_nc g) q (g_matsubara_reg g) p (g_m_quark g) (/ t) 1.2)) (Re (polarization_quark_l_thermal_part_zero_temp_landau_i (g_nc g) q (g_matsubara_reg g) p (g_m_quark g) 1.2)) /\
    tends (at_right 0) (fun t => Re (polarization_quark_t_thermal_part_landau_i (g_nc g) q (g_matsubara_reg g) p (g_m_quark g) (/ t) 1.2)) (Re (polarization_quark_t_thermal_part_zero_temp_landau_i (g_nc g) q (g_matsubara_reg g) p (g_m_quark g) 1.2))).
  { intros q p H. assert (H' : sqrt (g_m_quark g * g_m_quark g + q * q) <> Rabs 1.2) by (rewrite Rabs_pos_eq; lra).
    pose proof (quark_cold_R (g_nc g) q (g_matsubara_reg g) p (g_m_quark g) 1.2 0 H') as [A _].
    pose proof (quark_cold_R (g_nc g) q (g_matsubara_reg g) p (g_m_quark g) 1.2 1 H') as [B _]. apply T_to_0 in A, B. split; [exact A|exact B]. }
  split; (apply Forall2_cons; [|apply Forall2_cons; [|apply Forall2_nil]]); cbn [pl_images nth]; (apply map_curve; eapply Forall_impl; [|exact Hq]; intros q H; cbn beta; first [exact (proj1 (X q _ H))|exact (proj2 (X q _ H))]).
Qed.

(** ** qcd_gluon_quark_polarization.rs *)
Lemma small_momentum_eq g qs : let c := fun long p => integrand_curve (g_nc g) 0.1 0.3 1.2 qs long p 0.26 in
  let P := small_momentum_program g qs in
  pl_domain P = qs /\ pl_legends P = [0.1; 0.1; 0.05; 0.05; 0.01; 0.01; 0] /\ length (pl_images P) = 7%nat /\
  firstn 6 (pl_images P) = [c true 0.1; c false 0.1; c true 0.05; c false 0.05; c true 0.01; c false 0.01].
Proof.
  unfold small_momentum_program. cbv zeta. cbn [flat_map app pl_domain pl_legends pl_images length firstn].
  replace (12 / 10) with 1.2 by lra. replace (300 / 1000) with 0.3 by lra. replace (260 / 1000) with 0.26 by lra.
  replace (1 / 10) with 0.1 by lra. replace (5 / 100) with 0.05 by lra. replace (1 / 100) with 0.01 by lra.
  unfold integrand_curve, get_number_of_colors, Rdiv. rewrite !Rmult_1_l. repeat split.
Qed.
Lemma small_momentum_limit g qs : (0 < g_nc g)%nat -> Forall (fun q => 0 < q) qs ->
  let P := small_momentum_program g qs in
  forall long, curves_tend (at_right 0) (fun p => integrand_curve (g_nc g) 0.1 0.3 1.2 qs long p 0.26) (nth 6 (pl_images P) []) (length qs).
Proof.
  intros Hn Hq. unfold small_momentum_program. cbv zeta. cbn [flat_map app pl_images nth].
  replace (12 / 10) with 1.2 by lra. replace (300 / 1000) with 0.3 by lra. replace (1 / (260 / 1000)) with (/ 0.26) by lra. replace (1 / 10) with 0.1 by lra.
  unfold integrand_curve, get_number_of_colors. intros long.
  apply map_curve. eapply Forall_impl; [|exact Hq]. intros q Hq0. cbn beta.
  pose proof (lim_quark_R q 0.1 (/ 0.26) Hq0 ltac:(lra) (g_nc g) 0.3 1.2 0 Hn) as [[A _] _].
  pose proof (lim_quark_R q 0.1 (/ 0.26) Hq0 ltac:(lra) (g_nc g) 0.3 1.2 1 Hn) as [[B _] _].
  destruct long; [exact A|exact B].
Qed.

(** ** qed_htl_limit.rs *)
Lemma quark_real J g om p mq beta mu I : exact_integrator J -> (0 < g_nc g)%nat -> om <> 0 -> 0 < p -> 0 < beta ->
  snd (polarization_quark_l_thermal_part_landau_w_method J g om p mq beta mu I) = 0 /\ snd (polarization_quark_t_thermal_part_landau_w_method J g om p mq beta mu I) = 0.
Proof.
  intros HJ Hn Ho Hp Hb. pose proof (half_line_C J g om p 0 mq beta mu I) as H1. unfold half_line_integrals_C in H1; cbv zeta in H1.
  pose proof (nth_Forall _ _ 8%nat _ H1 eq_refl) as HL. pose proof (nth_Forall _ _ 10%nat _ H1 eq_refl) as HT. cbn beta iota in HL, HT.
  split; [rewrite HL|rewrite HT].
  - rewrite (proj2 HJ _ _ _ I _ (compact_RtoC _ (dT mq mu (wl (g_nc g) om p mq) beta) _ (fun q Hq => ql_eq (g_nc g) om mq Hn Ho p Hp beta mu q Hq)
      (dT_is _ _ _ (wl_Ob (g_nc g) om p mq Hn Ho Hp) (fun q Hq => wl_cont (g_nc g) om p mq Hn Ho q Hp Hq) beta Hb))). reflexivity.
  - rewrite (proj2 HJ _ _ _ I _ (compact_RtoC _ (dT mq mu (wt (g_nc g) om p mq) beta) _ (fun q Hq => qt_eq (g_nc g) om mq Hn Ho p Hp beta mu q Hq)
      (dT_is _ _ _ (wt_Ob (g_nc g) om p mq Hn Ho Hp) (fun q Hq => wt_cont (g_nc g) om p mq Hn Ho q Hp Hq) beta Hb))). reflexivity.
Qed.

Lemma six_ratio (f : R -> C) nc L : (0 < nc)%nat -> L <> 0 -> tendsC (Rbar_locally p_infty) (fun T => f T / RtoC (T * T))%C (RtoC (- ((1 + 3 * (0 * 0) / (PI * PI)) / (2 * INR nc) * L))) ->
  tendsC (Rbar_locally p_infty) (fun T => (Cmult (RtoC (-6)) (f T) / RtoC (T * T * L))%C) (RtoC (3 / INR nc)).
Proof.
  intros Hn HL H. assert (N : INR nc <> 0) by (apply not_0_INR; lia). pose proof PI_neq0 as Pi0.
  assert (HC : RtoC L <> RtoC 0) by (intros E; apply HL; now injection E).
  eapply tendsC_ext; [|eapply tendsC_eq; [|apply (tendsC_mult (fun _ => (RtoC (-6) / RtoC L)%C) _ _ _ (tendsC_const _) H)]].
  - exists 0. intros T HT. assert (RtoC T <> RtoC 0) by (intros E; injection E; lra). rewrite !RtoC_mult. field. auto.
  - unfold Cdiv. rewrite <- RtoC_inv by auto. rewrite <- !RtoC_mult. f_equal. field. auto.
Qed.
Lemma htl_ratio J g om p : exact_integrator J -> (0 < g_nc g)%nat -> om <> 0 -> 0 < p ->
  tendsC (Rbar_locally p_infty) (fun t => (f_ours J g om p t / f_htl om p t)%C) (RtoC (3 / INR (g_nc g))) /\
  tendsC (Rbar_locally p_infty) (fun t => (g_ours J g om p t / g_htl om p t)%C) (RtoC (3 / INR (g_nc g))).
Proof.
  intros HJ Hn Ho Hp. assert (M : tends (Rbar_locally p_infty) (fun T => 0 / T) 0) by (eapply tends_ext; [|apply (tends_const 0)]; exists 0; intros; unfold Rdiv; ring).
  pose proof (hot_C_ok J g (1 / 1000) (fun _ => 0) 0 (get_default_integration_method g) HJ Hn M om p Ho Hp) as H. unfold hot_quark_C in H; cbv zeta in H.
  apply Forall_cons_iff in H as [_ H]; apply Forall_cons_iff in H as [HL H]; apply Forall_cons_iff in H as [_ H]; apply Forall_cons_iff in H as [HT _].
  cbn [fst snd] in HL, HT. destruct (htl_pos om p Ho Hp) as [PL PT]. unfold f_ours, g_ours.
  split; [apply six_ratio in HL|apply six_ratio in HT]; auto; try lra; [eapply tendsC_ext; [|exact HL]|eapply tendsC_ext; [|exact HT]]; exists 0; intros t Ht; destruct (hp_fhtl om p t Ho Hp) as (A & B & _); unfold Rdiv; rewrite ?Rmult_1_l; [rewrite A|rewrite B]; reflexivity.
Qed.
(** What the files of the program contain: the real parts of the four functions, and zeros. *)
Lemma htl_program_eq J g momenta : exact_integrator J -> (0 < g_nc g)%nat -> Forall (fun p => 0 < p) momenta ->
  htl_program J g momenta =
  map (fun t => (t, [map (fun p => t * t * htl_L 0.01 p) momenta; map (fun p => Re (f_ours J g 0.01 p t)) momenta;
                     map (fun p => t * t * htl_T 0.01 p) momenta; map (fun p => Re (g_ours J g 0.01 p t)) momenta],
                 repeat (map (fun _ => 0) momenta) 4)) [1; 2; 5; 10].
Proof.
  intros HJ Hn Hp. unfold htl_program. cbv zeta. replace (1 / 100) with 0.01 by lra.
  assert (X : forall t, 0 < t -> forall p, 0 < p -> Im (f_ours J g 0.01 p t) = 0 /\ Im (g_ours J g 0.01 p t) = 0).
  { intros t Ht p H. assert (B : 0 < 1 / t) by (unfold Rdiv; rewrite Rmult_1_l; now apply Rinv_0_lt_compat).
    destruct (quark_real J g 0.01 p (1 / 1000) (1 / t) 0 (get_default_integration_method g) HJ Hn ltac:(lra) H B) as [A C].
    unfold f_ours, g_ours, polarization_quark_l_thermal_part_landau, polarization_quark_t_thermal_part_landau, Im, Cmult. cbn [fst snd RtoC]. rewrite A, C. split; ring. }
  assert (Y : forall t p, 0 < p -> f_htl 0.01 p t = RtoC (t * t * htl_L 0.01 p) /\ g_htl 0.01 p t = RtoC (t * t * htl_T 0.01 p)).
  { intros t p H. destruct (hp_fhtl 0.01 p t ltac:(lra) H) as (A & B & _). auto. }
  assert (ME : forall f h : R -> R, (forall p, 0 < p -> f p = h p) -> map f momenta = map h momenta).
  { intros f h H. apply map_ext_in. intros p I. apply H. exact (proj1 (Forall_forall _ _) Hp p I). }
  assert (Z : forall t, 0 < t -> (t, map (map Re) [map (fun p => f_htl 0.01 p t) momenta; map (fun p => f_ours J g 0.01 p t) momenta; map (fun p => g_htl 0.01 p t) momenta; map (fun p => g_ours J g 0.01 p t) momenta],
     map (map Im) [map (fun p => f_htl 0.01 p t) momenta; map (fun p => f_ours J g 0.01 p t) momenta; map (fun p => g_htl 0.01 p t) momenta; map (fun p => g_ours J g 0.01 p t) momenta]) =
     (t, [map (fun p => t * t * htl_L 0.01 p) momenta; map (fun p => Re (f_ours J g 0.01 p t)) momenta;
                     map (fun p => t * t * htl_T 0.01 p) momenta; map (fun p => Re (g_ours J g 0.01 p t)) momenta],
                 repeat (map (fun _ => 0) momenta) 4)).
  { intros t Ht. cbn [map repeat]. rewrite !map_map. f_equal; [f_equal|]; repeat (apply f_equal2; [try reflexivity; apply ME; intros p H; destruct (Y t p H) as [A B], (X t Ht p H) as [C D]; rewrite ?A, ?B, ?C, ?D; reflexivity|]); reflexivity. }
  cbn [map]. rewrite !Z by lra. reflexivity.
Qed.
