(** * The chemical potential at low temperature *)
From Coq Require Import Reals Psatz Lia.
From Coquelicot Require Import Coquelicot.
From Verif Require Import Num MCommon MConsts MDress MQuark MUtils SpecInt SpecLim PDistr PDistr2 PVac PLim PInt PCold PBasel PBound PFermi PColdQ PColdFin PColdLim PDensity PChem.
Open Scope R_scope.

Lemma exp_decay x : 0 < x -> exp (- x) <= 4 / (x * x).
Proof.
  intros Hx. pose proof (exp_ge_sq x (Rlt_le _ _ Hx)) as H. rewrite exp_Ropp. replace (4 / (x * x)) with (/ (x * x / 4)) by (field; lra). apply Rinv_le_contravar; nra.
Qed.
Lemma cold_panics (g : globals R) (m n tol : R) : (0 < g_nc g)%nat -> 0 < tol < Rabs n -> Rabs n < Rabs m ->
  exists b0, 0 < b0 /\ forall J I beta, exact_integrator J -> get_tol I = tol -> b0 <= beta -> chemical_potential_with_method J g m beta n I = Panic.
Proof.
  intros Hnc Ht Hnm. pose proof (lt_0_INR _ Hnc) as HN. pose proof PI_RGT_0 as HPI.
  set (a := Rabs n) in *. set (mm := Rabs m) in *. set (M := (a + mm) / 2). set (Q := 24 * (PI * PI) * (1000 * a / (M - a) + 2)). set (K := Q + 1 + 2 * mm + a).
  assert (Q0 : 0 < Q). { unfold Q. assert (0 < 1000 * a / (M - a)) by (apply Rdiv_lt_0_compat; unfold M; lra). apply Rmult_lt_0_compat; [nra|lra]. }
  assert (K0 : 0 < K) by (unfold K; lra).
  set (d := mm - M). assert (Hd : 0 < d) by (unfold d, M; lra).
  set (L := INR (g_nc g) * (mm * mm * mm / (3 * (PI * PI)) + mm / 3)).
  assert (mm2 : 0 < mm * mm) by nra. assert (mm3 : 0 < mm * mm * mm) by nra. assert (PP : 0 < PI * PI) by nra.
  assert (L0 : 0 < L). { unfold L. apply Rmult_lt_0_compat; auto. apply Rplus_lt_0_compat; apply Rdiv_lt_0_compat; nra. }
  set (b1 := 32 * L * K / (d * d * tol)). set (b2 := 16 * L / (d * d * (a - tol))). set (b3 := 3 / (2 * mm)).
  assert (B1 : 0 < b1) by (unfold b1; apply Rdiv_lt_0_compat; assert (0 < L * K) by nra; assert (0 < d * d) by nra; assert (0 < d * d * tol) by nra; lra).
  assert (B2 : 0 < b2) by (unfold b2; apply Rdiv_lt_0_compat; assert (0 < d * d) by nra; [|apply Rmult_lt_0_compat]; lra).
  assert (B3 : 0 < b3) by (unfold b3; apply Rdiv_lt_0_compat; lra).
  exists (1 + b1 + b1 + b2 + b3). split; [lra|]. intros J I beta HJ HI Hb. assert (Hb0 : 0 < beta) by lra.
  assert (H4 : 4 <= exp (2 * beta * mm)).
  { pose proof (exp_ineq1_le (2 * beta * mm)). assert (b3 * (2 * mm) <= beta * (2 * mm)) by (apply Rmult_le_compat_r; lra). replace (b3 * (2 * mm)) with 3 in * by (unfold b3; field; lra). lra. }
  set (nu := 4 * exp (- (beta * (mm - M))) * mless g beta mm).
  assert (Ml : mless g beta mm <= L).
  { unfold mless, L. apply Rmult_le_compat_l; [lra|]. apply Rplus_le_compat_l. apply Rmult_le_compat_l; [lra|]. apply Rinv_le_contravar; nra. }
  assert (Mp : 0 <= mless g beta mm).
  { unfold mless. apply Rmult_le_pos; [lra|]. apply Rplus_le_le_0_compat; apply Rdiv_le_0_compat; nra. }
  assert (Ex : exp (- (beta * (mm - M))) <= 4 / (d * d) * / (beta * beta)).
  { fold d. apply Rle_trans with (1 := exp_decay (beta * d) (Rmult_lt_0_compat _ _ Hb0 Hd)). right. field. lra. }
  pose proof (exp_pos (- (beta * (mm - M)))) as Ep.
  assert (NU : nu * (beta * beta) <= 16 * L / (d * d)).
  { unfold nu. apply Rle_trans with (4 * (4 / (d * d) * / (beta * beta)) * L * (beta * beta)).
    - apply Rmult_le_compat_r; [nra|]. apply Rmult_le_compat; lra.
    - right. field. split; lra. }
  assert (nu0 : 0 <= nu) by (unfold nu; apply Rmult_le_pos; lra).
  assert (NU1 : nu * beta <= 16 * L / (d * d) / beta).
  { apply Rmult_le_reg_r with beta; auto. unfold Rdiv at 1. rewrite Rmult_assoc. replace (16 * L / (d * d) * / beta * beta) with (16 * L / (d * d)) by (field; lra). lra. }
  assert (R1 : 2 * beta * nu * K <= tol).
  { replace (2 * beta * nu * K) with (2 * K * (nu * beta)) by ring. apply Rle_trans with (2 * K * (16 * L / (d * d) / beta)); [apply Rmult_le_compat_l; lra|].
    apply Rmult_le_reg_r with beta; auto. replace (2 * K * (16 * L / (d * d) / beta) * beta) with (tol * b1) by (unfold b1; field; lra). apply Rmult_le_compat_l; lra. }
  assert (R2 : nu <= a - tol).
  { apply Rle_trans with (nu * beta); [nra|]. apply Rle_trans with (1 := NU1). apply Rmult_le_reg_r with beta; auto.
    replace (16 * L / (d * d) / beta * beta) with ((a - tol) * b2) by (unfold b2; field; lra). apply Rmult_le_compat_l; lra. }
  assert (R3 : 24 * (PI * PI) * (1000 * a / (M - a) + 2) <= K * K) by (fold Q; unfold K; nra).
  rewrite <- HI in *.
  assert (E : chemical_potential_with_method J g m beta a I = Panic /\ chemical_potential_with_method J g m beta (- a) I = Panic).
  { apply (fails_if J g beta m I HJ Hb0 Hnc a M K); fold mm; auto; try (unfold M, K; lra). }
  destruct E as (E1 & E2). destruct (Rle_dec 0 n) as [S|S].
  - replace n with a by (unfold a; rewrite Rabs_pos_eq; auto). exact E1.
  - replace n with (- a) by (unfold a; rewrite Rabs_left by lra; ring). exact E2.
Qed.

(** the exact solution, in contrast, has the zero-temperature limit *)
Lemma cd_lim J g m mu I : exact_integrator J -> (0 < g_nc g)%nat -> tends INF (fun b => charge_density_with_method J g m b mu I) (charge_density_zero_temp (g_nc g) m mu).
Proof.
  intros HJ Hnc. eapply tends_ext; [|exact (charge_lim J g m mu HJ I)]. exists 0. intros b Hb. symmetry. unfold charge_density_with_method.
  apply (proj1 HJ). pose proof (cdi_is J g b I HJ Hb m mu) as H. rewrite (proj1 HJ _ _ _ I _ H). eapply is_RInt_ext; [|exact H].
  intros t _. unfold compact_R, get_number_of_colors. simpl. now rewrite Rmult_1_r.
Qed.
Lemma chempot_zt_outside nc m n : (0 < nc)%nat -> n <> 0 -> Rabs m < Rabs (chemical_potential_zero_temp nc m n).
Proof.
  intros Hn Hz. destruct (Rle_lt_dec (Rabs (chemical_potential_zero_temp nc m n)) (Rabs m)) as [L|L]; auto. exfalso. apply Hz.
  rewrite <- (density_of_chempot nc m n Hn). unfold charge_density_zero_temp. destruct (Rle_dec (Rabs (chemical_potential_zero_temp nc m n)) (Rabs m)); [reflexivity|contradiction].
Qed.
Lemma exact_cold_limit J g m n I (mu : R -> R) : exact_integrator J -> (0 < g_nc g)%nat -> n <> 0 ->
  (forall beta, 0 < beta -> charge_density_with_method J g m beta (mu beta) I = n) ->
  tends INF mu (chemical_potential_zero_temp (g_nc g) m n).
Proof.
  intros HJ Hnc Hz Hmu. set (m0 := chemical_potential_zero_temp (g_nc g) m n). pose proof (chempot_zt_outside _ m n Hnc Hz) as O. fold m0 in O.
  pose proof (density_of_chempot (g_nc g) m n Hnc) as D. fold m0 in D.
  intros P (eps & HP). set (e := pos eps). assert (He : 0 < e) by apply cond_pos.
  pose proof (density_strict (g_nc g) m (m0 - e) m0 Hnc ltac:(lra) (or_intror O)) as L1. pose proof (density_strict (g_nc g) m m0 (m0 + e) Hnc ltac:(lra) (or_introl O)) as L2.
  assert (N1 : locally (charge_density_zero_temp (g_nc g) m (m0 - e)) (fun x => x < n)) by (apply open_lt; lra).
  assert (N2 : locally (charge_density_zero_temp (g_nc g) m (m0 + e)) (fun x => n < x)) by (apply open_gt; lra).
  pose proof (cd_lim J g m (m0 - e) I HJ Hnc _ N1) as E1. pose proof (cd_lim J g m (m0 + e) I HJ Hnc _ N2) as E2. unfold filtermap in *.
  assert (E0 : INF (fun b => 0 < b)) by (exists 0; auto).
  pose proof (filter_and _ _ E0 (filter_and _ _ E1 E2)) as E. revert E. apply filter_imp. intros b (Hb & A & B). apply HP.
  pose proof (Hmu b Hb) as Hr.
  assert (inc : forall x y, charge_density_with_method J g m b x I < charge_density_with_method J g m b y I -> x < y).
  { intros x y H. destruct (Rtotal_order x y) as [K|[K|K]]; auto; [rewrite K in H; lra|]. pose proof (cd_increasing J g b I HJ Hb m y x Hnc K). lra. }
  assert (A' : m0 - e < mu b) by (apply inc; lra). assert (B' : mu b < m0 + e) by (apply inc; lra). unfold ball; simpl; unfold AbsRing_ball, abs, minus, plus, opp; simpl. apply Rabs_def1; unfold e in *; lra.
Qed.
Lemma cold_panics_default (g : globals R) (m n : R) : (0 < g_nc g)%nat -> 0 < g_tol_integral g < Rabs n -> Rabs n < Rabs m ->
  exists b0, 0 < b0 /\ forall J beta, exact_integrator J -> b0 <= beta -> chemical_potential J g m beta n = Panic.
Proof.
  intros Hnc Ht Hm. destruct (cold_panics g m n (g_tol_integral g) Hnc Ht Hm) as (b0 & B0 & H). exists b0. split; auto.
  intros J beta HJ Hb. unfold chemical_potential. apply H; auto.
Qed.
