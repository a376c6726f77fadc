(** * Hard thermal loops: the limit integrands integrate to the known self-energies *)
From Coq Require Import Reals Psatz Lia List.
From Coquelicot Require Import Coquelicot.
From Verif Require Import Num CField MCommon MThermal MPolar MHtl SpecLim SpecHtl PCplx PVac PMass PLim PLimC PBasel PWeights PWeights2 PDeriv PHtl2 PHtl3.
Import List ListNotations.
Open Scope R_scope.

Lemma gen_ftc_pos (F f : R -> R) (u v : R) : (forall x, 0 < x -> is_derive F x (f x)) -> (forall x, 0 < x -> continuous f x) -> tends R0 F u -> tends INF F v -> is_RInt_gen f R0 INF (v - u).
Proof.
  intros H1 H2 H3 H4. apply gen_intro. intros eps He. destruct (tends_R0_elim _ _ (eps / 2) ltac:(lra) H3) as (d & Hd & K1). destruct (tends_INF_elim _ _ (eps / 2) ltac:(lra) H4) as (M & K2).
  exists d, (Rmax M d). split; auto. intros a b Ha Hb. pose proof (Rmax_l M d). pose proof (Rmax_r M d). exists (F b - F a). split.
  - apply (is_RInt_derive (V := R_CompleteNormedModule) F f a b); intros x Hx; rewrite Rmin_left, Rmax_right in Hx by lra; [apply H1|apply H2]; lra.
  - specialize (K1 a Ha). specialize (K2 b ltac:(lra)). apply Rabs_def2 in K1. apply Rabs_def2 in K2. apply Rabs_def1; lra.
Qed.
(** derivative of the boundary term *)
Definition dbT (T q : R) : R := let nb := / (exp (q / T) - 1) in (2 * q * nb - q * q * (/ T * nb * (1 + nb))) / (12 * (PI * PI)).
Lemma dbT_d T q : 0 < T -> 0 < q -> is_derive (boundary_T T) q (dbT T q).
Proof. intros HT Hq. pose proof (boundary_d q T Hq HT) as H. rewrite (nb_eq q T Hq) in H. exact H. Qed.
Lemma den_pos T q : 0 < T -> 0 < q -> 0 < exp (q / T) - 1.
Proof. intros HT Hq. assert (0 < q / T) by (apply Rdiv_lt_0_compat; auto). pose proof (exp_ineq1 (q / T) ltac:(lra)). lra. Qed.
Lemma dbT_c T q : 0 < T -> 0 < q -> continuous (dbT T) q.
Proof.
  intros HT Hq. pose proof (den_pos T q HT Hq). apply (ex_derive_continuous (K := R_AbsRing) (V := R_NormedModule)). unfold dbT, Rdiv in *. pose proof PI_neq0. auto_derive. repeat split; auto; lra.
Qed.
Lemma dbT_int T : 0 < T -> is_RInt_gen (dbT T) R0 INF 0.
Proof.
  intros HT. replace 0 with (0 - 0) at 2 by ring. apply (gen_ftc_pos (boundary_T T)); [intros; now apply dbT_d|intros; now apply dbT_c|now apply boundary_T_0|now apply boundary_T_inf].
Qed.
Definition wBL (om k : R) : R := (om * om - 3 * (k * k)) / (om * om + k * k).

(** A family of integrands converges pointwise to a function whose integral is known. *)
Lemma lin_gen (f g : R -> R) (u v c d l : R) : is_RInt_gen f R0 INF u -> is_RInt_gen g R0 INF v -> l = c * u + d * v -> is_RInt_gen (fun x => c * f x + d * g x) R0 INF l.
Proof. intros H1 H2 ->. now apply gen_lin. Qed.
Lemma scal_gen (f : R -> R) (u c l : R) : is_RInt_gen f R0 INF u -> l = c * u -> is_RInt_gen (fun x => c * f x) R0 INF l.
Proof. intros H ->. apply (is_RInt_gen_scal (V := R_NormedModule)). exact H. Qed.

Section P.
Variables (om k : R).
Hypothesis Hom : om <> 0.
Hypothesis Hk : 0 < k.
Section Q.
Variables (nc : nat) (m T mu : R).
Hypothesis Hnc : (0 < nc)%nat.
Hypothesis HT : 0 < T.
Let Hn : INR nc <> 0. Proof. apply not_0_INR. lia. Qed.
Let Hpi := PI_neq0.
Definition MT : R := T * T + 3 * (mu * mu) / (PI * PI).
Lemma quark_htl : exists l t : R -> R,
  (forall q, 0 < q -> tendsC R0 (fun x => polarization_quark_l_thermal_part_landau_i nc q (x * om) (x * k) (x * m) (/ T) mu) (RtoC (l q)) /\
                      tendsC R0 (fun x => polarization_quark_t_thermal_part_landau_i nc q (x * om) (x * k) (x * m) (/ T) mu) (RtoC (t q))) /\
  is_RInt_gen l R0 INF (- (MT * htl_L om k / (2 * INR nc))) /\ is_RInt_gen t R0 INF (- (MT * htl_T om k / (2 * INR nc))).
Proof.
  exists (fun q => - (T * T * htl_L om k / (2 * INR nc)) * fermion_weight T mu q), (fun q => - (T * T * htl_T om k / (2 * INR nc)) * fermion_weight T mu q). split; [|split].
  1: intros q Hq; split; (eapply tendsC_eq; [|first [apply quark_l_htl; auto; fail|apply quark_t_htl; auto; fail]]); f_equal; field; auto.
  1,2: eapply scal_gen; [apply fermion_weight_int; auto|]; unfold MT; field; repeat split; auto; lra.
Qed.
Lemma quark0_htl : exists l t : R -> R,
  (forall q, 0 < q -> q <> Rabs mu -> tendsC R0 (fun x => polarization_quark_l_thermal_part_zero_temp_landau_i nc q (x * om) (x * k) (x * m) mu) (RtoC (l q)) /\
                      tendsC R0 (fun x => polarization_quark_t_thermal_part_zero_temp_landau_i nc q (x * om) (x * k) (x * m) mu) (RtoC (t q))) /\
  is_RInt_gen l R0 INF (- (3 * (mu * mu) / (PI * PI) * htl_L om k / (2 * INR nc))) /\ is_RInt_gen t R0 INF (- (3 * (mu * mu) / (PI * PI) * htl_T om k / (2 * INR nc))).
Proof.
  exists (fun q => - (htl_L om k / (2 * INR nc)) * sea_weight mu q), (fun q => - (htl_T om k / (2 * INR nc)) * sea_weight mu q). split; [|split].
  1: intros q Hq Hq'; split; (eapply tendsC_eq; [|first [apply quark0_l_htl; auto; fail|apply quark0_t_htl; auto; fail]]); f_equal; field; auto.
  1,2: eapply scal_gen; [apply sea_weight_int; auto|]; field; repeat split; auto.
Qed.
End Q.
Section G.
Variables (m T : R).
Hypothesis Hm : m <> 0.
Hypothesis HT : 0 < T.
Lemma glue_htl : exists l t : R -> R,
  (forall q, 0 < q -> tendsC R0 (fun x => polarization_glue_l_thermal_part_landau_i q (x * om) (x * k) (x * m) (/ T)) (RtoC (l q)) /\
                      tendsC R0 (fun x => polarization_glue_t_thermal_part_landau_i q (x * om) (x * k) (x * m) (/ T)) (RtoC (t q))) /\
  is_RInt_gen l R0 INF (- (T * T * htl_L om k)) /\ is_RInt_gen t R0 INF (- (T * T * htl_T om k)).
Proof.
  exists (fun q => - (T * T * htl_L om k) * boson_weight T q + wBL om k * dbT T q), (fun q => - (T * T * htl_T om k) * boson_weight T q + 1 * dbT T q). split; [|split].
  - intros q Hq. split.
    + destruct (glue_l_htl q om k m T Hq Hom Hk Hm HT) as (D & HD & HL). eapply tendsC_eq; [|exact HL]. f_equal.
      assert (E : D = wBL om k * dbT T q). { rewrite <- (is_derive_unique _ _ _ HD). apply is_derive_unique. apply (is_derive_scal (boundary_T T)). now apply dbT_d. }
      rewrite E. ring.
    + destruct (glue_t_htl q om k m T Hq Hom Hk Hm HT) as (D & HD & HL). eapply tendsC_eq; [|exact HL]. f_equal.
      assert (E : D = dbT T q). { rewrite <- (is_derive_unique _ _ _ HD). apply is_derive_unique. now apply dbT_d. }
      rewrite E. ring.
  - eapply lin_gen; [apply boson_weight_int; auto|apply dbT_int; auto|]. ring.
  - eapply lin_gen; [apply boson_weight_int; auto|apply dbT_int; auto|]. ring.
Qed.
End G.
End P.

(** The gluon polarization with nf quarks of one mass, as summed in the dressing functions. *)
Definition gluon_l_integrand (nc nf : nat) (q om p m mq beta mu : R) : C :=
  (polarization_glue_l_thermal_part_landau_i q om p m beta + RtoC (INR nf) * polarization_quark_l_thermal_part_landau_i nc q om p mq beta mu)%C.
Definition gluon_t_integrand (nc nf : nat) (q om p m mq beta mu : R) : C :=
  (polarization_glue_t_thermal_part_landau_i q om p m beta + RtoC (INR nf) * polarization_quark_t_thermal_part_landau_i nc q om p mq beta mu)%C.
Lemma known_exp T mu nc nf rem : (0 < nc)%nat -> 0 < T ->
  exp (asymptotics_known T mu nc nf rem) = ((INR nc + INR nf / 2) * (T * T) + 3 * INR nf * (mu * mu) / (2 * (PI * PI))) * exp rem.
Proof.
  intros Hn HT. unfold asymptotics_known. rewrite exp_plus, exp_ln. f_equal; pose proof PI_neq0; field; auto.
  assert (0 < INR nc) by (apply lt_0_INR; lia). pose proof (pos_INR nf). pose proof PI_RGT_0.
  assert (0 < (INR nc + INR nf / 2) * T * T) by (repeat apply Rmult_lt_0_compat; lra).
  assert (0 <= 3 * INR nf * mu * mu / (2 * PI * PI)). { apply Rmult_le_pos; [|left; apply Rinv_0_lt_compat; nra]. replace (3 * INR nf * mu * mu) with (3 * INR nf * (mu * mu)) by ring. apply Rmult_le_pos; [lra|nra]. }
  lra.
Qed.
Lemma gluon_htl om k (nc nf : nat) m mq T mu : om <> 0 -> 0 < k -> (0 < nc)%nat -> m <> 0 -> 0 < T -> exists l t : R -> R,
  (forall q, 0 < q -> tendsC R0 (fun x => gluon_l_integrand nc nf q (x * om) (x * k) (x * m) (x * mq) (/ T) mu) (RtoC (l q)) /\
                      tendsC R0 (fun x => gluon_t_integrand nc nf q (x * om) (x * k) (x * m) (x * mq) (/ T) mu) (RtoC (t q))) /\
  is_RInt_gen l R0 INF (- (exp (asymptotics_known T mu nc nf 0) / INR nc * htl_L om k)) /\ is_RInt_gen t R0 INF (- (exp (asymptotics_known T mu nc nf 0) / INR nc * htl_T om k)).
Proof.
  intros Ho Hk Hnc Hm HT. destruct (glue_htl om k Ho Hk m T Hm HT) as (l1 & t1 & H1 & L1 & T1). destruct (quark_htl om k Ho Hk nc mq T mu Hnc HT) as (l2 & t2 & H2 & L2 & T2).
  assert (Hn : INR nc <> 0) by (apply not_0_INR; lia). pose proof PI_neq0.
  exists (fun q => 1 * l1 q + INR nf * l2 q), (fun q => 1 * t1 q + INR nf * t2 q). split; [|split].
  - intros q Hq. destruct (H1 q Hq) as [A1 A2]. destruct (H2 q Hq) as [B1 B2]. unfold gluon_l_integrand, gluon_t_integrand. split.
    + eapply tendsC_eq; [|apply tendsC_plus; [exact A1|apply tendsC_mult; [apply tendsC_const|exact B1]]]. rewrite Rmult_1_l. now rewrite RtoC_plus, RtoC_mult.
    + eapply tendsC_eq; [|apply tendsC_plus; [exact A2|apply tendsC_mult; [apply tendsC_const|exact B2]]]. rewrite Rmult_1_l. now rewrite RtoC_plus, RtoC_mult.
  - eapply lin_gen; [exact L1|exact L2|]. rewrite known_exp, exp_0 by auto. unfold MT. field. auto.
  - eapply lin_gen; [exact T1|exact T2|]. rewrite known_exp, exp_0 by auto. unfold MT. field. auto.
Qed.

(** Final forms *)
Lemma hp_quark (nc : nat) om k m T mu q : (0 < nc)%nat -> 0 < q -> om <> 0 -> 0 < k -> 0 < T ->
  tendsC R0 (fun x => polarization_quark_l_thermal_part_landau_i nc q (x * om) (x * k) (x * m) (/ T) mu) (RtoC (- (fermion_weight T mu q * (T * T * htl_L om k) / (2 * INR nc)))) /\
  tendsC R0 (fun x => polarization_quark_t_thermal_part_landau_i nc q (x * om) (x * k) (x * m) (/ T) mu) (RtoC (- (fermion_weight T mu q * (T * T * htl_T om k) / (2 * INR nc)))).
Proof. intros. split; [apply quark_l_htl|apply quark_t_htl]; auto. Qed.
Lemma hp_quark0 (nc : nat) om k m mu q : (0 < nc)%nat -> 0 < q -> om <> 0 -> 0 < k -> q <> Rabs mu ->
  tendsC R0 (fun x => polarization_quark_l_thermal_part_zero_temp_landau_i nc q (x * om) (x * k) (x * m) mu) (RtoC (- (sea_weight mu q * htl_L om k / (2 * INR nc)))) /\
  tendsC R0 (fun x => polarization_quark_t_thermal_part_zero_temp_landau_i nc q (x * om) (x * k) (x * m) mu) (RtoC (- (sea_weight mu q * htl_T om k / (2 * INR nc)))).
Proof. intros. split; [apply quark0_l_htl|apply quark0_t_htl]; auto. Qed.
Lemma hp_fhtl om k t : om <> 0 -> 0 < k -> f_htl om k t = RtoC (t * t * htl_L om k) /\ g_htl om k t = RtoC (t * t * htl_T om k) /\ f_htl (RtoC om) k t = f_htl om k t.
Proof. intros. split; [now apply f_htl_R|split; [now apply g_htl_R|symmetry; apply f_htl_C]]. Qed.
Lemma hp_ours om k m T q : 0 < q -> om <> 0 -> 0 < k -> 0 < T ->
  tendsC R0 (fun x => (RtoC (-6) * polarization_quark_l_thermal_part_landau_i 3 q (x * om)%R (x * k)%R (x * m)%R (/ T)%R 0)%C) (RtoC (fermion_weight T 0 q) * f_htl om k T)%C /\
  tendsC R0 (fun x => (RtoC (-6) * polarization_quark_t_thermal_part_landau_i 3 q (x * om)%R (x * k)%R (x * m)%R (/ T)%R 0)%C) (RtoC (fermion_weight T 0 q) * g_htl om k T)%C.
Proof.
  intros Hq Ho Hk HT. rewrite f_htl_R, g_htl_R by auto. destruct (hp_quark 3 om k m T 0 q ltac:(lia) Hq Ho Hk HT) as [A B].
  split.
  - eapply tendsC_eq; [|apply tendsC_mult; [apply tendsC_const|exact A]]. rewrite <- ?RtoC_mult; f_equal; simpl INR; field.
  - eapply tendsC_eq; [|apply tendsC_mult; [apply tendsC_const|exact B]]. rewrite <- ?RtoC_mult; f_equal; simpl INR; field.
Qed.
Lemma hp_ours_int om k m T : om <> 0 -> 0 < k -> 0 < T -> exists l t : R -> R,
  (forall q, 0 < q ->
    tendsC R0 (fun x => (RtoC (-6) * polarization_quark_l_thermal_part_landau_i 3 q (x * om)%R (x * k)%R (x * m)%R (/ T)%R 0)%C) (RtoC (l q)) /\
    tendsC R0 (fun x => (RtoC (-6) * polarization_quark_t_thermal_part_landau_i 3 q (x * om)%R (x * k)%R (x * m)%R (/ T)%R 0)%C) (RtoC (t q))) /\
  is_RInt_gen l R0 INF (fst (f_htl om k T)) /\ is_RInt_gen t R0 INF (fst (g_htl om k T)).
Proof.
  intros Ho Hk HT. exists (fun q => T * T * htl_L om k * fermion_weight T 0 q), (fun q => T * T * htl_T om k * fermion_weight T 0 q). split; [|split].
  - intros q Hq. destruct (hp_ours om k m T q Hq Ho Hk HT) as [A B]. rewrite f_htl_R in A by auto. rewrite g_htl_R in B by auto.
    split; (eapply tendsC_eq; [|first [exact A|exact B]]); rewrite <- ?RtoC_mult; f_equal; ring.
  - rewrite f_htl_R by auto. simpl fst. eapply scal_gen; [apply fermion_weight_int; auto|]. pose proof PI_neq0. field. split; auto. lra.
  - rewrite g_htl_R by auto. simpl fst. eapply scal_gen; [apply fermion_weight_int; auto|]. pose proof PI_neq0. field. split; auto. lra.
Qed.
Lemma hp_glue om k m T q : 0 < q -> om <> 0 -> 0 < k -> m <> 0 -> 0 < T ->
  (exists D, is_derive (boundary_L om k T) q D /\ tendsC R0 (fun x => polarization_glue_l_thermal_part_landau_i q (x * om) (x * k) (x * m) (/ T)) (RtoC (- (boson_weight T q * (T * T * htl_L om k)) + D))) /\
  (exists D, is_derive (boundary_T T) q D /\ tendsC R0 (fun x => polarization_glue_t_thermal_part_landau_i q (x * om) (x * k) (x * m) (/ T)) (RtoC (- (boson_weight T q * (T * T * htl_T om k)) + D))).
Proof. intros. split; [apply glue_l_htl|apply glue_t_htl]; auto. Qed.
Lemma hp_boundary om k T : 0 < T -> tends R0 (boundary_T T) 0 /\ tends INF (boundary_T T) 0 /\ tends R0 (boundary_L om k T) 0 /\ tends INF (boundary_L om k T) 0.
Proof. intros. split; [|split; [|split]]; [apply boundary_T_0|apply boundary_T_inf|apply boundary_L_0|apply boundary_L_inf]; auto. Qed.
Lemma hp_ex_f : f_htl 1 1 1 = RtoC (2 / 3 * (1 - PI / 4)) /\ g_htl 1 1 1 = RtoC (1 / 6 - 1 / 3 * (1 - PI / 4)).
Proof.
  destruct (hp_fhtl 1 1 1 ltac:(lra) ltac:(lra)) as (A & B & _). assert (E : htl_phase 1 1 = - (PI / 2)).
  { unfold htl_phase. destruct (Rlt_dec 0 1); [|lra]. replace ((1 * 1 - 1 * 1) / (2 * 1 * 1)) with 0 by field. rewrite atan_0. ring. }
  rewrite A, B. unfold htl_T, htl_L. rewrite E. split; f_equal; field.
Qed.
