(** * Uniform asymptotics in temperature and chemical potential; the asymptotics program (C86)

    [quadratic_R f a c k]: for every eps there is K with
    |f T mu - (a T^2 + c mu^2)| <= eps (T^2 + k mu^2) + K for all T > 0 and all mu.
    [gluon_scale nc nf T mu = (nc + nf/2) T^2 + 3 nf mu^2 / (2 pi^2)]. *)
From Coq Require Import Reals List.
From Coquelicot Require Import Coquelicot.
From Verif Require Import Num MCommon MConsts MUtils MVacuum MDress MQuark MHtl MAsym SpecInt SpecLim SpecHtl SpecHot SpecScale PScale2 PScale3 PScale4 PAsym PCfg PExTherm PExHot.
Import List ListNotations.
Open Scope R_scope.

(** Every integrated quark polarization is - h/(2 Nc) (T^2 + 3 mu^2/pi^2), h the
    hard-thermal-loop function, up to an error small compared with T^2 + mu^2
    uniformly in T and mu; quark mass, momentum and frequency only enter the error and h. *)
Theorem C86_quarks_uniform : forall J g mq I, exact_integrator J -> (0 < g_nc g)%nat ->
  (forall om p, om <> 0 -> 0 < p -> Forall (fun x : (R -> R -> C) * R => quadratic_C (fst x) (- (snd x / (2 * INR (g_nc g)))) (- (3 * snd x / (2 * (PI * PI) * INR (g_nc g)))) 1) (scale_quark_C J g om p mq I)) /\
  (forall p, 0 < p -> g_matsubara_reg g <> 0 -> Forall (fun x : (R -> R -> R) * R => quadratic_R (fst x) (- (snd x / (2 * INR (g_nc g)))) (- (3 * snd x / (2 * (PI * PI) * INR (g_nc g)))) 1) (scale_quark_R J g p mq I)).
Proof. exact (fun J g mq I HJ Hn => conj (fun om p => quark_quad_C J g mq I HJ Hn om p) (fun p => quark_quad_R J g mq I HJ Hn p)). Qed.
Print Assumptions C86_quarks_uniform.

(** The integrated gluon and ghost loops are l T^2 up to an error small compared with T^2 and
    bounded at every bounded temperature (the lists and l are those of C84). *)
Theorem C86_glue_uniform : forall J g m I, exact_integrator J -> m <> 0 ->
  (forall om p, om <> 0 -> 0 < p -> Forall (fun x : (R -> C) * R => quadratic_C (fun T _ => fst x T) (snd x) 0 0) (hot_glue_C J g om p m I)) /\
  (forall p, 0 < p -> g_matsubara_reg g <> 0 -> Forall (fun x : (R -> R) * R => quadratic_R (fun T _ => fst x T) (snd x) 0 0) (hot_glue_R J g p m I)).
Proof. exact (fun J g m I HJ Hm => conj (fun om p => glue_quad_C J g m I HJ Hm om p) (fun p => glue_quad_R J g m I HJ Hm p)). Qed.
Print Assumptions C86_glue_uniform.

(** Along every curve (T, mu) on which [gluon_scale] grows without bound - high temperature at
    fixed mu, high mu at fixed temperature, or both - the inverse gluon propagators are
    asymptotically 16 pi^2/(3 Nc) h times [gluon_scale]. *)
Theorem C86_screening : forall J g m mq f0 nc quarks F (FF : Filter F) T mu, exact_integrator J -> (0 < g_nc g)%nat -> m <> 0 -> F (fun x => 0 < T x) ->
  let grows nf := filterlim (fun y => gluon_scale (g_nc g) nf (T y) (mu y)) F (Rbar_locally p_infty) in
  let l h := 16 * (PI * PI) / (3 * INR (g_nc g)) * h in
  (forall om p, om <> 0 -> 0 < p -> Forall (fun x : (R -> R -> C * C * C) * nat * R => grows (snd (fst x)) -> scaled_C F T mu (g_nc g) (snd (fst x)) (om * om + p * p) (fst (fst x)) (l (snd x))) (scale_gen J g om p m mq f0 nc quarks)) /\
  (forall om, om <> 0 -> Forall (fun x : (R -> R -> C * C * C) * nat * R => grows (snd (fst x)) -> scaled_C F T mu (g_nc g) (snd (fst x)) (om * om) (fst (fst x)) (l (snd x))) (scale_zp J g om m mq f0 nc quarks)) /\
  (forall p, 0 < p -> g_matsubara_reg g <> 0 -> Forall (fun x : (R -> R -> R * R * R) * nat * R => grows (snd (fst x)) -> scaled_R F T mu (g_nc g) (snd (fst x)) (p * p) (fst (fst x)) (l (snd x))) (scale_zm J g p m mq f0 nc quarks)).
Proof.
  exact (fun J g m mq f0 nc quarks F FF T mu HJ Hn Hm HT =>
    conj (fun om p => scale_gen_ok J g m f0 nc quarks HJ Hn F T mu HT mq om p Hm)
   (conj (fun om => scale_zp_ok J g m f0 nc quarks HJ Hn F T mu HT mq om Hm) (fun p => scale_zm_ok J g m f0 nc quarks HJ Hn F T mu HT mq p Hm))).
Qed.
Print Assumptions C86_screening.

(** The claim of qcd_gluon_propagator_asymptotics.rs: [asymptotics_test] and
    [asymptotics_known] differ asymptotically by a constant that depends neither on Nc, Nf, T
    nor on mu. The propagator whose logarithm is taken is eventually positive. *)
Theorem C86_asymptotics : forall J F (FF : Filter F) T mu nc nf g rem, exact_integrator J -> (0 < nc)%nat -> F (fun x => 0 < T x) ->
  filterlim (fun x => gluon_scale nc nf (T x) (mu x)) F (Rbar_locally p_infty) ->
  F (fun x => 0 < fst (asym_prop J (T x) (mu x) nc nf g)) /\
  tends F (fun x => fst (asymptotics_test J (T x) (mu x) nc nf g) - asymptotics_known (T x) (mu x) nc nf rem) (ln (32 * (PI * PI) / 9 * (1 - PI / 4)) - rem).
Proof. exact (fun J F FF T mu nc nf g rem => @asym_limit J F FF T mu nc nf g rem). Qed.
Print Assumptions C86_asymptotics.
(** "for large temperatures and, separately, for large chemical potentials" *)
Theorem C86_large_T_and_large_mu : forall J nc nf g rem, exact_integrator J -> (0 < nc)%nat ->
  (forall mu, tends (Rbar_locally p_infty) (fun T => fst (asymptotics_test J T mu nc nf g) - asymptotics_known T mu nc nf rem) (ln (32 * (PI * PI) / 9 * (1 - PI / 4)) - rem)) /\
  (forall T, (0 < nf)%nat -> 0 < T -> tends (Rbar_locally p_infty) (fun mu => fst (asymptotics_test J T mu nc nf g) - asymptotics_known T mu nc nf rem) (ln (32 * (PI * PI) / 9 * (1 - PI / 4)) - rem)).
Proof. exact (fun J nc nf g rem HJ Hn => conj (fun mu => asym_T J mu nc nf g rem HJ Hn) (fun T Hf HT => asym_mu J T nc nf g rem HJ Hn Hf HT)). Qed.
Print Assumptions C86_large_T_and_large_mu.
(** The constant found a posteriori by the authors, rem = 2.02, is the limit rounded to two decimals. *)
Theorem C86_constant : 2015 / 1000 < ln (32 * (PI * PI) / 9 * (1 - PI / 4)) < 2025 / 1000.
Proof. exact asym_constant_bounds. Qed.
Print Assumptions C86_constant.

(** The data of the two plots. Each call changes the numbers of colours and flavours and restores
    them, so every point is computed from the same globals, and the program ends with the
    globals it started from except for the tolerance. *)
Theorem C86_main : forall J g, g_nf_div_nc g = INR (g_nf g) / INR (g_nc g) ->
  let g' := mkGlobals (g_nc g) (g_nf g) (g_nf_div_nc g) (g_m_quark g) (/ 10000) (g_max_iter_integral g) (g_matsubara_reg g) in
  let known nf nc t mu := ln ((INR nc + INR nf / 2) * (t * t) + 3 * INR nf * (mu * mu) / (2 * (PI * PI))) + 202 / 100 in
  let test nf nc t mu := fst (asymptotics_test J t mu nc nf g') in
  let plot f1 f2 := flat_map (fun x => [(fst x, snd x, false, f1 (fst x) (snd x)); (fst x, snd x, true, f2 (fst x) (snd x))]) [(1, 2); (1, 3); (1, 5); (2, 2); (2, 3); (2, 5)]%nat in
  asymptotics_main J g = Some
   (plot (fun nf nc => [known nf nc 8 3; known nf nc 12 3; known nf nc 15 3; known nf nc 20 3]) (fun nf nc => [test nf nc 8 3; test nf nc 12 3; test nf nc 15 3; test nf nc 20 3]),
    plot (fun nf nc => [known nf nc 3 8; known nf nc 3 12; known nf nc 3 15; known nf nc 3 20]) (fun nf nc => [test nf nc 3 8; test nf nc 3 12; test nf nc 3 15; test nf nc 3 20]), g').
Proof. exact main_eq. Qed.
Print Assumptions C86_main.

(** At 3 colours and 2 flavours, fixed temperature 3 and mu -> infinity, with an exact integrator. *)
Example C86_example : tends (Rbar_locally p_infty) (fun mu => fst (asymptotics_test RInt_J 3 mu 3 2 g0) - asymptotics_known 3 mu 3 2 (202 / 100)) (ln (32 * (PI * PI) / 9 * (1 - PI / 4)) - 202 / 100).
Proof. exact (asym_mu RInt_J 3 3 2 g0 (202 / 100) RInt_J_exact (le_n_S 0 2 (le_0_n 2)) (le_n_S 0 1 (le_0_n 1)) (IZR_lt 0 3 eq_refl)). Qed.
