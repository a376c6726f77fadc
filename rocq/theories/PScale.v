(** * Estimates uniform in the temperature and the chemical potential *)
From Coq Require Import Reals Lra Lia List Psatz.
From Coquelicot Require Import Coquelicot.
From Verif Require Import Num CField MCommon MConsts MThermal MPolar MDress MQuark SpecInt SpecLim SpecHtl SpecHot PCplx PDistr PVac PBasel PDensity PInt PCold PBound PColdG PColdI PFermi PColdQ PLim PLimC PWeights PWeights2 PHot PHotB6.
Import List ListNotations.
Open Scope R_scope.

Lemma SS_lt2 nu y : SS nu y < 2.
Proof.
  unfold SS. assert (H : forall x, / (exp x + 1) < 1) by (intros x; pose proof (exp_pos x); rewrite <- Rinv_1; apply Rinv_lt_contravar; lra).
  pose proof (H (y - nu)). pose proof (H (y + nu)). lra.
Qed.
Lemma sea_SS nu q : PWeights2.sea nu q = q * SS nu q.
Proof. unfold PWeights2.sea, SS. pose proof (exp_pos (q - nu)). pose proof (exp_pos (q + nu)). field. repeat split; lra. Qed.
Lemma Phi_range nu y : 0 < y -> Phi nu 0 <= Phi nu y <= Phi nu 0 + y * y.
Proof.
  intros Hy. split.
  - apply Rlt_le, (incr0 (Phi nu) (PWeights2.sea nu)); auto; [apply Phi_d|]. intros x Hx. rewrite sea_SS. pose proof (SS_pos nu x). nra.
  - assert (H : (fun x => x * x - Phi nu x) 0 < (fun x => x * x - Phi nu x) y); [|cbv beta in H; lra].
    apply (incr0 (fun x => x * x - Phi nu x) (fun x => 2 * x - PWeights2.sea nu x)); auto.
    + intros x. pose proof (Phi_d nu x) as A. auto_derive; [eexists; exact A|]. change (Derive (fun x => Phi nu x)) with (Derive (Phi nu)). rewrite (is_derive_unique _ _ _ A). ring.
    + intros x Hx. rewrite sea_SS. pose proof (SS_lt2 nu x). nra.
Qed.
Lemma RI_id_mass m mu b : 0 < b -> Rabs (b * b * RI m mu b (fun q => q) - (PI * PI / 6 + b * mu * (b * mu) / 2)) <= b * m * (b * m).
Proof.
  intros Hb. destruct (Req_dec m 0) as [->|Hm]; [rewrite RI0_id by auto; rewrite Rminus_eq_0, Rabs_R0; lra|].
  set (h := fun q => q * SS (b * mu) (b * sqrt (q * q + m * m))).
  assert (EP : forall q, 0 < q * q + m * m) by (intros q; assert (0 < m * m) by nra; nra).
  assert (V : is_RInt (compact_R h) 0 1 (RI m mu b (fun q => q))).
  { apply (compact_ext _ (dT m mu (fun q => q) b)); [intros q Hq; unfold dT, h; rewrite fdd_R, energy_R, (Rplus_comm (m * m)); reflexivity|]. now apply RI_is; [apply id_Ob|apply id_cont|]. }
  set (K := fun q => / (b * b) * Phi (b * mu) (b * sqrt (q * q + m * m))).
  assert (D : forall q, is_derive K q (h q)).
  { intros q. unfold K, h. pose proof (Phi_d (b * mu) (b * sqrt (q * q + m * m))) as A. pose proof (EP q). pose proof (sqrt_lt_R0 _ (EP q)).
    auto_derive; [split; [eexists; exact A|auto]|].
    change (Derive (fun x => Phi (b * mu) x)) with (Derive (Phi (b * mu))). rewrite (is_derive_unique _ _ _ A), sea_SS. field. repeat split; lra. }
  assert (C : forall q, continuous h q).
  { intros q. unfold h. apply (continuous_mult (K := R_AbsRing) (fun q : R => q)); [apply continuous_id|].
    apply (continuous_comp (fun q => sqrt (q * q + m * m)) (fun e => SS (b * mu) (b * e))); [|apply SS_cont].
    apply (ex_derive_continuous (K := R_AbsRing) (V := R_NormedModule)). pose proof (EP q). auto_derive. auto. }
  pose proof (half_of_compact h _ (fun x _ => C x) V) as L.
  assert (L2 : tends INF (fun Q => RInt h 0 Q) (/ (b * b) * (PI * PI / 6) - K 0)).
  { apply (tends_ext (fun Q => K Q - K 0)).
    - apply filter_forall. intros Q. symmetry. apply is_RInt_unique. now apply ftc.
    - apply tends_minus; [|apply tends_const]. unfold K. apply tends_mult; [apply tends_const|]. intros P HP. destruct (Phi_inf (b * mu) P HP) as [M HM].
      exists (Rmax 0 (M / b)). intros x Hx. apply HM. pose proof (Rmax_l 0 (M / b)). pose proof (Rmax_r 0 (M / b)).
      assert (x <= sqrt (x * x + m * m)) by (rewrite <- (sqrt_square x) at 1 by lra; apply sqrt_le_1_alt; nra).
      apply Rlt_le_trans with (b * x); [|apply Rmult_le_compat_l; lra].
      assert (Y : M / b < x) by lra. apply (Rmult_lt_compat_l b) in Y; auto. replace (b * (M / b)) with M in Y by (field; lra). lra. }
  rewrite (INF_uniq _ _ _ L L2). unfold K. replace (0 * 0 + m * m) with (m * m) by ring.
  assert (Y : 0 < b * sqrt (m * m)) by (apply Rmult_lt_0_compat; auto; apply sqrt_lt_R0; nra).
  pose proof (Phi_range (b * mu) _ Y) as [R1 R2]. rewrite Phi_0 in R1, R2.
  assert (S : b * sqrt (m * m) * (b * sqrt (m * m)) = b * m * (b * m)) by (replace (b * sqrt (m * m) * (b * sqrt (m * m))) with (b * b * (sqrt (m * m) * sqrt (m * m))) by ring; rewrite sqrt_sqrt by nra; ring).
  rewrite S in R2.
  replace (b * b * (/ (b * b) * (PI * PI / 6) - / (b * b) * Phi (b * mu) (b * sqrt (m * m)))) with (PI * PI / 6 - Phi (b * mu) (b * sqrt (m * m))) by (field; lra).
  apply Rabs_le. lra.
Qed.
Lemma ln1exp x : ln (1 + exp x) <= Rabs x + 1.
Proof.
  pose proof (exp_pos x). apply Rle_trans with (ln (exp (Rabs x + 1))); [|rewrite ln_exp; lra]. apply ln_le; [lra|].
  rewrite exp_plus. pose proof (exp_ineq1 1 ltac:(lra)). pose proof (Rle_abs x). assert (exp x <= exp (Rabs x)) by (destruct H1 as [H1|H1]; [left; now apply exp_increasing|rewrite <- H1; lra]).
  pose proof (Rabs_pos x). pose proof (exp_ineq1_le (Rabs x)). nra.
Qed.
Lemma w1_pos q : 0 < q -> 0 <= w1 q. Proof. intros; unfold w1; apply Rdiv_le_0_compat; lra. Qed.
Lemma RI_w1 m mu b : 0 < b -> RI m mu b w1 <= 2 * (Rabs mu + / b).
Proof.
  intros Hb. apply Rle_trans with (1 := RI_le0 m mu b _ w1_Ob w1_cont Hb w1_pos). pose proof (RI0_1 mu b Hb) as H. pose proof (ln1exp (b * mu)) as A. pose proof (ln1exp (- (b * mu))) as B.
  rewrite Rabs_Ropp in B. rewrite Rabs_mult, (Rabs_pos_eq b) in A, B by lra. apply (Rmult_le_reg_l b); auto. replace (b * (2 * (Rabs mu + / b))) with (2 * (b * Rabs mu + 1)) by (field; lra). lra.
Qed.
(** The quark integrals: c (pi^2 T^2/6 + mu^2/2) up to o(T^2 + mu^2), uniformly. *)
Lemma RI_joint m w c : Ob 1 w -> (forall q, 0 < q -> continuous w q) -> tends INF (fun q => w q / q) c -> forall eps, 0 < eps ->
  exists K, 0 <= K /\ forall T mu, 0 < T -> Rabs (RI m mu (/ T) w - (c * (PI * PI / 6) * (T * T) + c / 2 * (mu * mu))) <= eps * (T * T + mu * mu) + K.
Proof.
  intros O C L eps He.
  set (P2 := PI * PI / 6 + 1). assert (HP : 0 < PI * PI) by (pose proof PI_RGT_0; nra). assert (H1 : 1 < P2) by (unfold P2; lra).
  set (e := eps / (4 * P2)). assert (Hee : 0 < e) by (apply Rdiv_lt_0_compat; lra).
  assert (Ee : e * P2 = eps / 4) by (unfold e; field; lra).
  destruct (lin_dev w c e O L Hee) as (K & HK & D).
  set (k := 2 * K). assert (Hk : 0 <= k) by (unfold k; lra).
  set (N := k * k / eps). assert (HN : 0 <= N) by (unfold N; apply Rdiv_le_0_compat; nra).
  assert (S : forall x, 0 <= x -> k * x <= eps / 4 * (x * x) + N).
  { intros x Hx. unfold N. apply (Rmult_le_reg_r eps); auto. replace ((eps / 4 * (x * x) + k * k / eps) * eps) with (eps * eps / 4 * (x * x) + k * k) by (field; lra). pose proof (Rle_0_sqr (eps * x / 2 - k)) as Q. unfold Rsqr in Q. nra. }
  exists ((Rabs c + e) * (m * m) + 2 * N). pose proof (Rabs_pos c) as Hc. assert (HM : 0 <= m * m) by nra. split; [nra|]. intros T mu HT.
  assert (Hb : 0 < / T) by now apply Rinv_0_lt_compat.
  set (X := PI * PI / 6 * (T * T) + mu * mu / 2).
  pose proof (RI_id_mass m mu (/ T) Hb) as Y.
  assert (Y' : Rabs (RI m mu (/ T) (fun q => q) - X) <= m * m).
  { apply (Rmult_le_compat_l (T * T)) in Y; [|nra]. rewrite <- (Rabs_pos_eq (T * T)) in Y at 1 by nra. rewrite <- Rabs_mult in Y.
    replace (T * T * (/ T * / T * RI m mu (/ T) (fun q => q) - (PI * PI / 6 + / T * mu * (/ T * mu) / 2))) with (RI m mu (/ T) (fun q => q) - X) in Y by (unfold X; field; lra).
    replace (T * T * (/ T * m * (/ T * m))) with (m * m) in Y by (field; lra). exact Y. }
  pose proof (RI_w1 m mu (/ T) Hb) as W. rewrite Rinv_inv in W.
  pose proof (RI_dev m mu (/ T) w c e K O C Hb D) as Z.
  set (x := RI m mu (/ T) w) in *. set (y := RI m mu (/ T) (fun q => q)) in *. set (z := RI m mu (/ T) w1) in *.
  replace (x - (c * (PI * PI / 6) * (T * T) + c / 2 * (mu * mu))) with ((x - c * y) + c * (y - X)) by (unfold X; field).
  apply Rle_trans with (1 := Rabs_triang _ _). rewrite Rabs_mult.
  assert (Rabs c * Rabs (y - X) <= Rabs c * (m * m)) by (apply Rmult_le_compat_l; auto).
  assert (y <= X + m * m) by (apply Rabs_le_between in Y'; lra).
  assert (e * y <= e * (X + m * m)) by (apply Rmult_le_compat_l; lra).
  assert (X <= P2 * (T * T + mu * mu)) by (unfold X, P2; nra).
  assert (e * X <= eps / 4 * (T * T + mu * mu)).
  { apply Rle_trans with (e * (P2 * (T * T + mu * mu))); [apply Rmult_le_compat_l; [apply Rlt_le; exact Hee|assumption]|]. rewrite <- Rmult_assoc, Ee. apply Rle_refl. }
  assert (K * z <= k * Rabs mu + k * T) by (unfold k; replace (2 * K * Rabs mu + 2 * K * T) with (K * (2 * (Rabs mu + T))) by ring; apply Rmult_le_compat_l; lra).
  pose proof (S (Rabs mu) (Rabs_pos mu)) as S1. pose proof (S T ltac:(lra)) as S2. replace (Rabs mu * Rabs mu) with (mu * mu) in S1 by (rewrite <- Rabs_mult; symmetry; apply Rabs_pos_eq; nra).
  assert (0 <= T * T) by nra. assert (0 <= mu * mu) by nra. nra.
Qed.
