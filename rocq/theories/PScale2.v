(** * Limits uniform in the temperature and the chemical potential: calculus *)
From Coq Require Import Reals Lra Lia List Psatz.
From Coquelicot Require Import Coquelicot.
From Verif Require Import Num CField MCommon MConsts MVacuum MThermal MThermalZM MThermalZP MPolar MDress MQuark SpecInteg SpecInt SpecLim SpecDress SpecHtl SpecHot SpecScale PCplx PDistr PVac PDress PDress2 PInt PCfg PLim PLimC PCold PColdG PColdI PColdQ PColdFin PColdLim PHot PHot2 PHot3 PHotB4 PHotB5 PHotB6 PHotB7 PHotB8 PScale.
Import List ListNotations.
Open Scope R_scope.

(** ** Calculus *)
Lemma qR_ext f h a c k : (forall T mu, f T mu = h T mu) -> quadratic_R h a c k -> quadratic_R f a c k.
Proof. intros E H eps He. destruct (H eps He) as [K HK]. exists K. intros T mu HT. rewrite E. auto. Qed.
Lemma qR_eq f a c k a' c' k' : a = a' -> c = c' -> k = k' -> quadratic_R f a c k -> quadratic_R f a' c' k'.
Proof. now intros -> -> ->. Qed.
Lemma qR_const v : quadratic_R (fun _ _ => v) 0 0 0.
Proof. intros eps He. exists (Rabs v). intros T mu HT. replace (v - (0 * (T * T) + 0 * (mu * mu))) with v by ring. assert (0 <= T * T) by nra. nra. Qed.
Lemma qR_plus f h a c k a' c' k' : quadratic_R f a c k -> quadratic_R h a' c' k' -> 0 <= k -> 0 <= k' -> quadratic_R (fun T mu => f T mu + h T mu) (a + a') (c + c') (k + k').
Proof.
  intros A B Hk Hk' eps He. destruct (A (eps / 2) ltac:(lra)) as [K HK]. destruct (B (eps / 2) ltac:(lra)) as [K' HK']. exists (K + K'). intros T mu HT.
  specialize (HK T mu HT). specialize (HK' T mu HT).
  replace (f T mu + h T mu - ((a + a') * (T * T) + (c + c') * (mu * mu))) with ((f T mu - (a * (T * T) + c * (mu * mu))) + (h T mu - (a' * (T * T) + c' * (mu * mu)))) by ring.
  apply Rle_trans with (1 := Rabs_triang _ _). assert (0 <= k * (mu * mu)) by (apply Rmult_le_pos; nra). assert (0 <= k' * (mu * mu)) by (apply Rmult_le_pos; nra). nra.
Qed.
(** A factor r changes the weight of mu^2 to |r|: without quarks there is no dependence on mu. *)
Lemma qR_scal r f a c : quadratic_R f a c 1 -> quadratic_R (fun T mu => r * f T mu) (r * a) (r * c) (Rabs r).
Proof.
  intros A eps He. pose proof (Rabs_pos r) as Hr. set (n := Rabs r + 1). assert (Hn : 0 < n) by (unfold n; lra).
  destruct (A (eps / n) ltac:(apply Rdiv_lt_0_compat; lra)) as [K HK]. exists (Rabs r * K). intros T mu HT. specialize (HK T mu HT).
  replace (r * f T mu - (r * a * (T * T) + r * c * (mu * mu))) with (r * (f T mu - (a * (T * T) + c * (mu * mu)))) by ring. rewrite Rabs_mult.
  apply (Rmult_le_compat_l (Rabs r)) in HK; auto. apply Rle_trans with (1 := HK).
  assert (E : eps / n * n = eps) by (field; lra). set (e := eps / n) in *. assert (He' : 0 < e) by (apply Rdiv_lt_0_compat; lra).
  assert (0 <= T * T) by nra. assert (0 <= mu * mu) by nra. rewrite <- E. unfold n. assert (0 <= Rabs r * (mu * mu)) by (apply Rmult_le_pos; auto). 
  replace (Rabs r * (e * (T * T + 1 * (mu * mu)) + K)) with (e * (Rabs r * (T * T)) + e * (Rabs r * (mu * mu)) + Rabs r * K) by ring.
  replace (e * (Rabs r + 1) * (T * T + Rabs r * (mu * mu)) + Rabs r * K) with (e * (Rabs r * (T * T)) + e * (T * T) + e * (Rabs r * (Rabs r * (mu * mu))) + e * (Rabs r * (mu * mu)) + Rabs r * K) by ring.
  assert (0 <= e * (T * T)) by (apply Rmult_le_pos; lra). assert (0 <= e * (Rabs r * (Rabs r * (mu * mu)))) by (apply Rmult_le_pos; [lra|apply Rmult_le_pos; auto]). lra.
Qed.
Lemma qC_plus f h a c k a' c' k' : quadratic_C f a c k -> quadratic_C h a' c' k' -> 0 <= k -> 0 <= k' -> quadratic_C (fun T mu => f T mu + h T mu)%C (a + a') (c + c') (k + k').
Proof. intros [A1 A2] [B1 B2] Hk Hk'. split; [now apply qR_plus|]. eapply qR_eq; [| | |apply (qR_plus _ _ _ _ _ _ _ _ A2 B2 Hk Hk')]; ring. Qed.
Lemma qC_nat n f a c : quadratic_C f a c 1 -> quadratic_C (fun T mu => RtoC (INR n) * f T mu)%C (INR n * a) (INR n * c) (INR n).
Proof.
  intros [A1 A2]. pose proof (Rabs_pos_eq (INR n) (pos_INR n)) as E. split.
  - apply (qR_ext _ (fun T mu => INR n * fst (f T mu))); [intros; cbn; ring|]. eapply qR_eq; [reflexivity|reflexivity|exact E|now apply qR_scal].
  - apply (qR_ext _ (fun T mu => INR n * snd (f T mu))); [intros; cbn; ring|]. eapply qR_eq; [| |exact E|now apply qR_scal; exact A2]; ring.
Qed.
Lemma qR_nat n f a c : quadratic_R f a c 1 -> quadratic_R (fun T mu => INR n * f T mu) (INR n * a) (INR n * c) (INR n).
Proof. intros A1. pose proof (Rabs_pos_eq (INR n) (pos_INR n)) as E. eapply qR_eq; [reflexivity|reflexivity|exact E|now apply qR_scal]. Qed.
Lemma qC_const0 : quadratic_C (fun _ _ => RtoC 0) 0 0 0. Proof. split; apply qR_const. Qed.
Lemma qC_wsum (quarks : list (nat * R)) (f : R -> R -> R -> C) a c : (forall mq, quadratic_C (fun T mu => f T mu mq) a c 1) ->
  quadratic_C (fun T mu => wsum_C (map (fun q => (INR (fst q), f T mu (snd q))) quarks)) (INR (quark_total quarks) * a) (INR (quark_total quarks) * c) (INR (quark_total quarks)).
Proof.
  intros H. induction quarks as [|q t IH].
  - cbn [quark_total fold_right INR]. replace (0 * a) with 0 by ring. replace (0 * c) with 0 by ring. exact qC_const0.
  - unfold wsum_C in *. cbn [map fold_right fst snd quark_total]. fold (quark_total t). rewrite plus_INR, !Rmult_plus_distr_r. apply (qC_plus _ _ _ _ _ _ _ _ (qC_nat _ _ _ _ (H (snd q))) IH); apply pos_INR.
Qed.
Lemma qR_wsum (quarks : list (nat * R)) (f : R -> R -> R -> R) a c : (forall mq, quadratic_R (fun T mu => f T mu mq) a c 1) ->
  quadratic_R (fun T mu => wsum_R (map (fun q => (INR (fst q), f T mu (snd q))) quarks)) (INR (quark_total quarks) * a) (INR (quark_total quarks) * c) (INR (quark_total quarks)).
Proof.
  intros H. induction quarks as [|q t IH].
  - cbn [quark_total fold_right INR]. replace (0 * a) with 0 by ring. replace (0 * c) with 0 by ring. exact (qR_const 0).
  - unfold wsum_R in *. cbn [map fold_right fst snd quark_total]. fold (quark_total t). rewrite plus_INR, !Rmult_plus_distr_r. apply (qR_plus _ _ _ _ _ _ _ _ (qR_nat _ _ _ _ (H (snd q))) IH); apply pos_INR.
Qed.
(** Limits at large T plus boundedness at small T. *)
Lemma q_of_limit f l : tends INF (fun T => f T / (T * T)) l -> (forall T0, 0 < T0 -> exists K, forall T, 0 < T <= T0 -> Rabs (f T) <= K) -> quadratic_R (fun T _ => f T) l 0 0.
Proof.
  intros L B eps He. destruct (L (fun y => Rabs (y - l) < eps)) as [M HM]; [exists (mkposreal eps He); intros y Hy; exact Hy|].
  set (T0 := Rmax M 1). assert (H0 : 0 < T0) by (unfold T0; pose proof (Rmax_r M 1); lra). destruct (B T0 H0) as [K HK].
  exists (Rabs l * (T0 * T0) + Rmax K 0). intros T mu HT. pose proof (Rmax_l K 0) as K1. pose proof (Rmax_r K 0) as K2. assert (P2 : 0 < T * T) by nra. assert (0 <= Rabs l) by apply Rabs_pos.
  destruct (Rle_dec T T0) as [G|G].
  - specialize (HK T (conj HT G)). replace (f T - (l * (T * T) + 0 * (mu * mu))) with (f T + - (l * (T * T))) by ring. apply Rle_trans with (1 := Rabs_triang _ _).
    rewrite Rabs_Ropp, Rabs_mult, (Rabs_pos_eq (T * T)) by lra. assert (Rabs l * (T * T) <= Rabs l * (T0 * T0)) by (apply Rmult_le_compat_l; nra). nra.
  - specialize (HM T ltac:(unfold T0 in G; pose proof (Rmax_l M 1); lra)). replace (f T - (l * (T * T) + 0 * (mu * mu))) with ((f T / (T * T) - l) * (T * T)) by (field; lra).
    rewrite Rabs_mult, (Rabs_pos_eq (T * T)) by lra. assert (0 <= Rabs l * (T0 * T0)) by (apply Rmult_le_pos; nra). nra.
Qed.
Lemma qC_of_limit f l : tendsC INF (fun T => f T / RtoC (T * T))%C (RtoC l) -> (forall T0, 0 < T0 -> exists K, forall T, 0 < T <= T0 -> Rabs (fst (f T)) <= K /\ Rabs (snd (f T)) <= K) -> quadratic_C (fun T _ => f T) l 0 0.
Proof.
  intros [L1 L2] B. split.
  - apply q_of_limit; [|intros T0 H0; destruct (B T0 H0) as [K HK]; exists K; intros T HT; now apply HK]. eapply tends_ext; [|exact L1].
    generalize T_ev. apply filter_imp. intros T HT. cbn. field. nra.
  - apply q_of_limit; [|intros T0 H0; destruct (B T0 H0) as [K HK]; exists K; intros T HT; now apply HK]. eapply tends_ext; [|exact L2].
    generalize T_ev. apply filter_imp. intros T HT. cbn. field. nra.
Qed.

(** ** The gluon and quark loops *)
Section L.
Variables (J : Integrator) (g : globals R) (m : R) (I : Integral R).
Hypothesis HJ : exact_integrator J.
Section Bounded.
Variable f : R -> R -> C.
Hypothesis Hf : forall b0, 0 < b0 -> exists K, forall b, b0 <= b -> exists v : C, is_RInt (V := C_R_NormedModule) (compact_C (f b)) 0 1 v /\ Rabs (fst v) <= K / b /\ Rabs (snd v) <= K / b.
Lemma ints_bounded d T0 : 0 < T0 -> exists K, forall T, 0 < T <= T0 -> (Rabs (fst (integrateC J (compact_C (f (/ T))) 0 1 d)) <= K /\ Rabs (snd (integrateC J (compact_C (f (/ T))) 0 1 d)) <= K) /\ Rabs (integrateR J (compact_R (fun q => fst (f (/ T) q))) 0 1 d) <= K.
Proof.
  intros H0. assert (Hb : 0 < / T0) by now apply Rinv_0_lt_compat. destruct (Hf _ Hb) as [K HK]. exists (Rmax K 0 * T0). intros T [HT HT0].
  destruct (HK (/ T) ltac:(apply Rinv_le_contravar; auto)) as (v & Hv & V1 & V2). rewrite (proj2 HJ _ _ _ _ _ Hv), (proj1 HJ _ _ _ _ _ (fst_int _ _ Hv)).
  assert (E : K / / T <= Rmax K 0 * T0) by (unfold Rdiv; rewrite Rinv_inv; apply Rle_trans with (Rmax K 0 * T); [apply Rmult_le_compat_r; [lra|apply Rmax_l]|apply Rmult_le_compat_l; [apply Rmax_r|lra]]). repeat split; (eapply Rle_trans; [|exact E]; assumption).
Qed.
End Bounded.
Hypothesis Hm : m <> 0.
Lemma glue_quad_C om p : om <> 0 -> 0 < p -> Forall (fun x => quadratic_C (fun T _ => fst x T) (snd x) 0 0) (hot_glue_C J g om p m I).
Proof.
  intros Ho Hp. assert (H1 := fun T => half_line_C J g om p m 0 (/ T) 0 I). unfold half_line_integrals_C in H1; cbv zeta in H1.
  assert (G := hot_glue_C_ok J g m I HJ Hm om p Ho Hp).
  assert (A := fun k d T0 H0 => ints_bounded (fun b q => nth k (glue_parts q om p m b) (RtoC 0)) (fun b0 Hb => glue_ints om p m Ho Hm b0 k Hp Hb) d T0 H0).
  assert (B := fun k d T0 H0 => ints_bounded (fun b q => nth k (zp_glue_parts q om m b) (RtoC 0)) (fun b0 Hb => zp_glue_ints om m Ho Hm b0 k Hb) d T0 H0).
  unfold hot_glue_C in *; cbv zeta in *.
  Ltac gb H1 G n k A l := apply qC_of_limit; [exact (nth_Forall _ _ n _ G eq_refl)|]; intros T0 H0;
    let E := fresh in assert (E := fun T => nth_Forall _ _ k _ (H1 T) eq_refl); cbv beta in E; cbn [fst snd] in E;
    let K := fresh in let HK := fresh in lazymatch type of E with forall T, _ = integrateC _ _ _ _ ?d => destruct (A l d T0 H0) as [K HK] | forall T, _ = integrateR _ _ _ _ ?d => destruct (A l d T0 H0) as [K HK] end; exists K; intros T HT; rewrite E; exact (proj1 (HK T HT)).
  repeat (apply Forall_cons || apply Forall_nil); cbn [fst snd].
  - gb H1 G 0%nat 0%nat A 0%nat.
  - gb H1 G 1%nat 1%nat A 0%nat.
  - gb H1 G 2%nat 2%nat B 0%nat.
  - gb H1 G 3%nat 3%nat B 0%nat.
  - gb H1 G 4%nat 4%nat A 1%nat.
  - gb H1 G 5%nat 5%nat A 1%nat.
  - gb H1 G 6%nat 6%nat A 2%nat.
  - gb H1 G 7%nat 7%nat A 2%nat.
  - gb H1 G 8%nat 12%nat B 1%nat.
  - gb H1 G 9%nat 13%nat B 1%nat.
  - gb H1 G 10%nat 14%nat B 2%nat.
  - gb H1 G 11%nat 15%nat B 2%nat.
Qed.
Lemma glue_quad_R p : 0 < p -> g_matsubara_reg g <> 0 -> Forall (fun x => quadratic_R (fun T _ => fst x T) (snd x) 0 0) (hot_glue_R J g p m I).
Proof.
  intros Hp Ho. assert (H1 := fun T => half_line_R J g p m 0 (/ T) 0 I). unfold half_line_integrals_R in H1; cbv zeta in H1.
  assert (G := hot_glue_R_ok J g m I HJ Hm p Hp Ho).
  assert (A := fun k d T0 H0 => ints_bounded (fun b q => nth k (glue_parts q (g_matsubara_reg g) p m b) (RtoC 0)) (fun b0 Hb => glue_ints (g_matsubara_reg g) p m Ho Hm b0 k Hp Hb) d T0 H0).
  unfold hot_glue_R in *; cbv zeta in *.
  Ltac gbR H1 G n k A l := apply q_of_limit; [exact (nth_Forall _ _ n _ G eq_refl)|]; intros T0 H0;
    let E := fresh in assert (E := fun T => nth_Forall _ _ k _ (H1 T) eq_refl); cbv beta in E; cbn [fst snd] in E;
    let K := fresh in let HK := fresh in lazymatch type of E with forall T, _ = integrateC _ _ _ _ ?d => destruct (A l d T0 H0) as [K HK] | forall T, _ = integrateR _ _ _ _ ?d => destruct (A l d T0 H0) as [K HK] end; exists K; intros T HT; rewrite E; exact (proj2 (HK T HT)).
  repeat (apply Forall_cons || apply Forall_nil); cbn [fst snd].
  - gbR H1 G 0%nat 2%nat A 1%nat.
  - gbR H1 G 1%nat 3%nat A 1%nat.
  - gbR H1 G 2%nat 4%nat A 2%nat.
  - gbR H1 G 3%nat 5%nat A 2%nat.
Qed.
End L.
