(** * Properties C77-C78: complex frequencies and the gluon-pole program *)
From Coq Require Import Reals Lra List.
From Coquelicot Require Import Coquelicot.
From Verif Require Import Num MConsts MUtils MVacuum MThermalZP MDress MPoles SpecConsts SpecInteg SpecDress SpecPoles PSym PSymC PSymD PSymE PPoles PPoles2 PExPoles.
Import List ListNotations.
Open Scope R_scope.

(** C77. *)
Theorem C77_even : forall (T1 T2 : Type) (N1 : Num T1) (N2 : Num T2) (q p beta : R) (om : C) (m1 : T1) (m2 : T2) (m mq mu : R) nc,
  (bubbles_mm q (- om)%C p m1 m2 beta = bubbles_mm q om p m1 m2 beta /\ bubbles_same q (- om)%C p m1 beta = bubbles_same q om p m1 beta /\
   bubbles_m0 q (- om)%C p m1 beta = bubbles_m0 q om p m1 beta /\ bubbles_0 q (- om)%C p beta = bubbles_0 q om p beta) /\
  (zp_bubbles_mm q (- om)%C m1 m2 beta = zp_bubbles_mm q om m1 m2 beta /\ zp_bubbles_same q (- om)%C m1 beta = zp_bubbles_same q om m1 beta /\
   zp_bubbles_m0 q (- om)%C m1 beta = zp_bubbles_m0 q om m1 beta /\ zp_bubbles_0 q (- om)%C beta = zp_bubbles_0 q om beta) /\
  (glue_parts q (- om)%C p m beta = glue_parts q om p m beta /\ zp_glue_parts q (- om)%C m beta = zp_glue_parts q om m beta) /\
  (quark_parts nc q (- om)%C p mq beta mu = quark_parts nc q om p mq beta mu /\
   quark_parts_zero_temp nc q (- om)%C p mq mu = quark_parts_zero_temp nc q om p mq mu /\
   zp_quark_parts nc q (- om)%C mq beta mu = zp_quark_parts nc q om mq beta mu /\
   zp_quark_parts_zero_temp nc q (- om)%C mq mu = zp_quark_parts_zero_temp nc q om mq mu).
Proof.
  exact (fun T1 T2 N1 N2 q p beta om m1 m2 m mq mu nc => conj
    (conj (bubbles_mm_even q p beta om m1 m2) (conj (bubbles_same_even q p beta om m1) (conj (bubbles_m0_even q p beta om m1) (bubbles_0_even q p beta om))))
    (conj (conj (zp_bubbles_mm_even q beta om m1 m2) (conj (zp_bubbles_same_even q beta om m1) (conj (zp_bubbles_m0_even q beta om m1) (zp_bubbles_0_even q beta om))))
    (conj (conj (glue_parts_even q p beta om m) (zp_glue_parts_even q beta om m))
    (conj (quark_parts_even q p beta om nc mq mu) (conj (quark_parts_zero_temp_even q p om nc mq mu)
      (conj (zp_quark_parts_even q beta om nc mq mu) (zp_quark_parts_zero_temp_even q om nc mq mu))))))).
Qed.
Print Assumptions C77_even.

Theorem C77_reflection_zero_momentum : forall (q beta : R) (om : C) (m1 m2 m mq mu : R) nc,
  zp_bubbles_mm q (Cconj om) m1 m2 beta = map Cconj (zp_bubbles_mm q om m1 m2 beta) /\
  zp_bubbles_same q (Cconj om) m beta = map Cconj (zp_bubbles_same q om m beta) /\
  zp_bubbles_m0 q (Cconj om) m beta = map Cconj (zp_bubbles_m0 q om m beta) /\
  zp_bubbles_0 q (Cconj om) beta = map Cconj (zp_bubbles_0 q om beta) /\
  zp_glue_parts q (Cconj om) m beta = map Cconj (zp_glue_parts q om m beta) /\
  zp_quark_parts nc q (Cconj om) mq beta mu = map Cconj (zp_quark_parts nc q om mq beta mu) /\
  zp_quark_parts_zero_temp nc q (Cconj om) mq mu = map Cconj (zp_quark_parts_zero_temp nc q om mq mu).
Proof.
  exact (fun q beta om m1 m2 m mq mu nc => conj (zp_bubbles_mm_conj q beta om m1 m2) (conj (zp_bubbles_same_conj q beta om m)
    (conj (zp_bubbles_m0_conj q beta om m) (conj (zp_bubbles_0_conj q beta om) (conj (zp_glue_parts_conj q beta om m)
    (conj (zp_quark_parts_conj q beta om nc mq mu) (zp_quark_parts_zero_temp_conj q om nc mq mu))))))).
Qed.
Print Assumptions C77_reflection_zero_momentum.

Theorem C77_reflection : forall (q p beta : R) (om : C) (m1 m2 m mq mu : R) nc,
  off_cut om (sqrt (q * q + m1 * m1)) -> off_cut om (sqrt (q * q + m2 * m2)) -> off_cut om (sqrt (q * q + m * m)) ->
  off_cut om (sqrt (q * q + mq * mq)) -> off_cut om q ->
  bubbles_mm q (Cconj om) p m1 m2 beta = map Cconj (bubbles_mm q om p m1 m2 beta) /\
  bubbles_same q (Cconj om) p m beta = map Cconj (bubbles_same q om p m beta) /\
  bubbles_m0 q (Cconj om) p m beta = map Cconj (bubbles_m0 q om p m beta) /\
  bubbles_0 q (Cconj om) p beta = map Cconj (bubbles_0 q om p beta) /\
  glue_parts q (Cconj om) p m beta = map Cconj (glue_parts q om p m beta) /\
  quark_parts nc q (Cconj om) p mq beta mu = map Cconj (quark_parts nc q om p mq beta mu) /\
  quark_parts_zero_temp nc q (Cconj om) p mq mu = map Cconj (quark_parts_zero_temp nc q om p mq mu).
Proof. exact reflection_all. Qed.
Print Assumptions C77_reflection.

Theorem C77_dressing_even : forall J g (om : C) (p m mq beta mu g0 f0 : R) cfg,
  gen_families J g (- om)%C p m mq beta mu g0 f0 cfg = gen_families J g om p m mq beta mu g0 f0 cfg /\
  zp_families J g (- om)%C m mq beta mu g0 f0 cfg = zp_families J g om m mq beta mu g0 f0 cfg.
Proof.
  exact (fun J g om p m mq beta mu g0 f0 cfg => conj (gen_families_even J g om p m mq beta mu g0 f0 cfg) (zp_families_even J g om m mq beta mu g0 f0 cfg)).
Qed.
Print Assumptions C77_dressing_even.

Theorem C77_dressing_reflection : forall J g (om : C) (m mq beta mu g0 f0 m' : R) nc quarks,
  commutes_with_conj J -> fst om <> 0 -> m <> 0 -> mq <> 0 -> m' <> 0 -> Forall (fun q : nat * R => snd q <> 0) quarks ->
  zp_families J g (Cconj om) m mq beta mu g0 f0 (FieldConfig_new nc m' quarks) =
  map conj3 (zp_families J g om m mq beta mu g0 f0 (FieldConfig_new nc m' quarks)).
Proof.
  exact (fun J g om m mq beta mu g0 f0 m' nc quarks HJ Ho Hm Hq Hm' Hf =>
    zp_families_conj J g HJ om m mq beta mu g0 f0 (FieldConfig_new nc m' quarks) Ho Hm Hq Hm' (fc_positive nc m' quarks Hm' Hf)).
Qed.
Print Assumptions C77_dressing_reflection.

(** Massless bubble at three related complex frequencies; every quadrature
    rule is an admissible integrator. *)
Example C77_example : let K := 2 * (PI * PI) * (exp 1 - 1) in
  zp_i_0_0_i 1 ((1, 1) : C) 1 = (2 / 5 / K, - (1 / 5) / K) /\
  zp_i_0_0_i 1 ((1, -1) : C) 1 = (2 / 5 / K, 1 / 5 / K) /\ zp_i_0_0_i 1 ((-1, -1) : C) 1 = (2 / 5 / K, - (1 / 5) / K).
Proof. exact ex_zp_00. Qed.
Example C77_example_integrators : forall rule, commutes_with_conj (quadratureJ rule).
Proof. exact ex_quadrature_conj. Qed.

(** C78. *)
Theorem C78_symmetry_check_never_fails : forall f, four_fold f ->
  find_thermal_pole f = NoRoot \/ exists p z, find_thermal_pole f = Found (p, z).
Proof. exact find_thermal_pole_symmetric. Qed.
Print Assumptions C78_symmetry_check_never_fails.

Theorem C78_dressing_four_fold : forall J g m beta f0, commutes_with_conj J -> m <> 0 ->
  four_fold (fun w => zp_ym_gluon_dressing_t_inv J g w m beta f0).
Proof. exact zp_four_fold. Qed.
Print Assumptions C78_dressing_four_fold.

Theorem C78_rows : forall J g, commutes_with_conj J ->
  poles_main J g = NoRoot \/
  exists v rows, poles_main J g = Found (v :: rows) /\ vacuum_row v /\ Forall2 (thermal_row J g) fits rows.
Proof. exact poles_main_spec. Qed.
Print Assumptions C78_rows.

Theorem C78_plots : forall res i p z, nth_error res i = Some (p, z) ->
  nth_error (poles_re res) i = Some (fst p) /\ nth_error (poles_im res) i = Some (snd p) /\ nth_error (residues_ratio res) i = Some z /\
  exists ph, nth_error (residues_phase res) i = Some ph /\ - (PI / 2) < ph < PI / 2 /\ tan ph = z.
Proof. exact plots. Qed.
Print Assumptions C78_plots.

Theorem C78_first_quadrant : forall f p z, find_thermal_pole f = Found (p, z) ->
  exists root, Cmod (f root) < accuracy /\ (fst root < 0 -> snd root < 0 -> 0 < fst p /\ 0 < snd p).
Proof. exact thermal_quadrant. Qed.
Print Assumptions C78_first_quadrant.

Theorem C78_vacuum_residue : forall f0 s0 c, s0 <> RtoC 0 -> c <> RtoC 0 -> simple_pole (fun s => ym_gluon_propagator_landau s f0) s0 c ->
  Clim0 (fun eps => vacuum_residue (fun h z => compute_residue_with_eps h z eps) (fun z => ym_gluon_dressing_inv_landau z f0) s0) c.
Proof. exact vacuum_propagator_residue. Qed.
Print Assumptions C78_vacuum_residue.

Theorem C78_thermal_residue : forall J g m beta f0 om0 c, om0 <> RtoC 0 -> c <> RtoC 0 ->
  simple_pole (fun s => zp_ym_gluon_propagator_t J g (Csqrt s) m beta f0) (om0 * om0)%C c ->
  Clim0 (fun eps => thermal_residue (fun h z => compute_residue_with_eps h z eps) (fun z => zp_ym_gluon_dressing_t_inv J g z m beta f0) om0) (Cconj c).
Proof. exact thermal_propagator_residue. Qed.
Print Assumptions C78_thermal_residue.

(** Any even function of the frequency. *)
Theorem C78_thermal_residue_any : forall f om0 c, (forall w, f (- w)%C = f w) -> om0 <> RtoC 0 -> c <> RtoC 0 ->
  simple_pole (fun s => / (s * f (Csqrt s)))%C (om0 * om0)%C c ->
  Clim0 (fun eps => thermal_residue (fun h z => compute_residue_with_eps h z eps) f om0) (Cconj c).
Proof. exact thermal_residue_limit. Qed.
Print Assumptions C78_thermal_residue_any.

(** s + 3 + 4 i; om^4 + 1/4, whose residue in om^2 is real; om^2 - 2 i. *)
Example C78_example_vacuum : find_pole (fun s => (s + (3, 4))%C) = Found (((2, 1) * RtoC (656 / 1000))%C, - (4 / 3)).
Proof. exact ex_vacuum. Qed.
Example C78_example_thermal : four_fold quartic /\ find_thermal_pole quartic = Found ((1 / 2, 1 / 2), - (2 / 10 ^ 24)).
Proof. exact (conj ex_quartic_four_fold ex_thermal). Qed.
Example C78_example_residue : simple_pole (fun s => / (s * (fun w => w * w - (0, 2)) (Csqrt s)))%C ((-1, -1) * (-1, -1))%C (/ (0, 2))%C.
Proof. exact ex_simple_pole. Qed.
