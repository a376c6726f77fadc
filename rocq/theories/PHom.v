(** * Dimensional homogeneity of the thermal integrands: the rules *)
From Coq Require Import Reals ZArith Lra Lia List.
From Coquelicot Require Import Coquelicot.
From Verif Require Import Num CField MCommon MThermal MThermalZM MThermalZP MPolar SpecInteg PCplx PVac PMass.
Import List ListNotations.
Open Scope R_scope.

(** [hom k x y]: x is y times the k-th power of the scale. *)
Definition hom (lam : R) {T : Type} {N : Num T} (k : Z) (x y : T) : Prop := x = nmul (ofR (powerRZ lam k)) y.

Class HomNum (lam : R) (T : Type) {N : Num T} := {
  h_add : forall k k1 k2 (x x' y y' : T), hom lam k1 x x' -> hom lam k2 y y' -> k = k1 -> k = k2 -> hom lam k (nadd x y) (nadd x' y');
  h_sub : forall k k1 k2 (x x' y y' : T), hom lam k1 x x' -> hom lam k2 y y' -> k = k1 -> k = k2 -> hom lam k (nsub x y) (nsub x' y');
  h_mul : forall k k1 k2 (x x' y y' : T), hom lam k1 x x' -> hom lam k2 y y' -> k = (k1 + k2)%Z -> hom lam k (nmul x y) (nmul x' y');
  h_div : forall k k1 k2 (x x' y y' : T), hom lam k1 x x' -> hom lam k2 y y' -> k = (k1 - k2)%Z -> hom lam k (ndiv x y) (ndiv x' y');
  h_opp : forall k (x x' : T), hom lam k x x' -> hom lam k (nopp x) (nopp x');
  h_inv : forall k k1 (x x' : T), hom lam k1 x x' -> k = (- k1)%Z -> hom lam k (ninv x) (ninv x');
  h_ln : forall k k1 (x x' : T), hom lam k1 x x' -> k1 = 0%Z -> k = 0%Z -> hom lam k (nln x) (nln x');
  h_exp : forall k k1 (x x' : T), hom lam k1 x x' -> k1 = 0%Z -> k = 0%Z -> hom lam k (nexp x) (nexp x');
  h_sqrt : forall k k1 (x x' : T), hom lam k1 x x' -> k1 = (k + k)%Z -> hom lam k (nsqrt x) (nsqrt x');
  h_re : forall k (x x' : T), hom lam k x x' -> hom lam k (nre x) (nre x');
  h_ofR : forall k (x x' : R), hom lam k x x' -> hom lam k (ofR x : T) (ofR x');
  h_toC : forall k (x x' : T), hom lam k x x' -> hom lam k (toC x) (toC x');
  h_const : forall k (x : T), k = 0%Z -> hom lam k x x
}.

Section Instances.
Variable lam : R.
Hypothesis Hl : 0 < lam.
Let Hl0 : lam <> 0 := Rgt_not_eq _ _ Hl.
Lemma pw_add a b : powerRZ lam (a + b) = powerRZ lam a * powerRZ lam b.
Proof. now apply powerRZ_add. Qed.
Lemma pw_opp a : powerRZ lam (- a) = / powerRZ lam a.
Proof. apply powerRZ_neg'. Qed.
Lemma pw_sub a b : powerRZ lam (a - b) = powerRZ lam a / powerRZ lam b.
Proof. unfold Z.sub. rewrite pw_add, pw_opp. reflexivity. Qed.
Lemma pw_pos a : 0 < powerRZ lam a.
Proof. now apply powerRZ_lt. Qed.

Ltac start := unfold hom; cbn; intros; subst.
Lemma HomR : HomNum lam R.
Proof.
  constructor; start.
  - ring.
  - ring.
  - rewrite pw_add. ring.
  - rewrite pw_sub. unfold Rdiv. rewrite Rinv_mult. ring.
  - ring.
  - rewrite pw_opp, Rinv_mult. ring.
  - now rewrite !Rmult_1_l.
  - now rewrite !Rmult_1_l.
  - rewrite pw_add, sqrt_mult_alt by (pose proof (pw_pos k); nra). now rewrite sqrt_square by (left; apply pw_pos).
  - ring.
  - ring.
  - now rewrite RtoC_mult.
  - now rewrite !Rmult_1_l.
Qed.
Lemma Csqrt_scale c z : 0 <= c -> Csqrt (RtoC (c * c) * z) = (RtoC c * Csqrt z)%C.
Proof.
  intros Hc. unfold Csqrt. rewrite Cmod_mult, Cmod_R, (Rabs_pos_eq (c * c)) by nra.
  replace (fst (RtoC (c * c) * z)%C) with (c * c * fst z) by (simpl; ring). replace (snd (RtoC (c * c) * z)%C) with (c * c * snd z) by (simpl; ring).
  replace ((c * c * Cmod z + c * c * fst z) / 2) with (c * c * ((Cmod z + fst z) / 2)) by field.
  replace ((c * c * Cmod z - c * c * fst z) / 2) with (c * c * ((Cmod z - fst z) / 2)) by field.
  rewrite !(sqrt_mult_alt (c * c)), sqrt_square by nra.
  destruct (Req_dec c 0) as [->|Hn].
  - apply Ceq; simpl; [ring|]. destruct (Rlt_dec _ _); ring.
  - apply Ceq; simpl; [ring|]. destruct (Rlt_dec (c * c * snd z) 0), (Rlt_dec (snd z) 0); try ring; exfalso; assert (0 < c * c) by nra; nra.
Qed.
Lemma HomC : HomNum lam C.
Proof.
  constructor; start.
  - ring.
  - ring.
  - rewrite pw_add, RtoC_mult. ring.
  - rewrite pw_sub, RtoC_div'. unfold Cdiv. rewrite Cinv_mult. ring.
  - ring.
  - rewrite pw_opp, RtoC_inv', Cinv_mult. ring.
  - now rewrite !Cmult_1_l.
  - now rewrite !Cmult_1_l.
  - rewrite pw_add. apply Csqrt_scale. left. apply pw_pos.
  - destruct x' as [a b]. simpl. ring.
  - now rewrite RtoC_mult.
  - reflexivity.
  - now rewrite Cmult_1_l.
Qed.
End Instances.

Section Functions.
Variable lam : R.
Hypothesis Hl : 0 < lam.
Let HR := HomR lam Hl.
Let HC := HomC lam Hl.
Local Existing Instance HR.
Local Existing Instance HC.

Lemma hom_k {T : Type} {N : Num T} k k1 (x y : T) : hom lam k1 x y -> k = k1 -> hom lam k x y.
Proof. now intros H ->. Qed.
Lemma r_mul k k1 k2 (x x' y y' : R) : hom lam k1 x x' -> hom lam k2 y y' -> k = (k1 + k2)%Z -> hom lam k (x * y) (x' * y').
Proof. exact (h_mul k k1 k2 x x' y y'). Qed.
Lemma r_add k k1 k2 (x x' y y' : R) : hom lam k1 x x' -> hom lam k2 y y' -> k = k1 -> k = k2 -> hom lam k (x + y) (x' + y').
Proof. exact (h_add k k1 k2 x x' y y'). Qed.
Lemma r_sub k k1 k2 (x x' y y' : R) : hom lam k1 x x' -> hom lam k2 y y' -> k = k1 -> k = k2 -> hom lam k (x - y) (x' - y').
Proof. exact (h_sub k k1 k2 x x' y y'). Qed.
Lemma r_div k k1 k2 (x x' y y' : R) : hom lam k1 x x' -> hom lam k2 y y' -> k = (k1 - k2)%Z -> hom lam k (x / y) (x' / y').
Proof. exact (h_div k k1 k2 x x' y y'). Qed.
Lemma r_opp k (x x' : R) : hom lam k x x' -> hom lam k (- x) (- x').
Proof. exact (h_opp k x x'). Qed.
Ltac hm_fun := fail.
Ltac hm :=
  first [ eassumption | lazymatch goal with
  | |- hom _ _ ?x ?x => apply h_const; reflexivity
  | |- hom _ _ (nadd _ _) _ => eapply h_add; [hm|hm|reflexivity|reflexivity]
  | |- hom _ _ (nsub _ _) _ => eapply h_sub; [hm|hm|reflexivity|reflexivity]
  | |- hom _ _ (nmul _ _) _ => eapply h_mul; [hm|hm|reflexivity]
  | |- hom _ _ (ndiv _ _) _ => eapply h_div; [hm|hm|reflexivity]
  | |- hom _ _ (nopp _) _ => eapply h_opp; hm
  | |- hom _ _ (ninv _) _ => eapply h_inv; [hm|reflexivity]
  | |- hom _ _ (nln _) _ => eapply h_ln; [hm|reflexivity|reflexivity]
  | |- hom _ _ (nexp _) _ => eapply h_exp; [hm|reflexivity|reflexivity]
  | |- hom _ _ (nsqrt _) _ => eapply h_sqrt; [hm|reflexivity]
  | |- hom _ _ (ofR _) _ => eapply h_ofR; hm
  | |- hom _ _ (toC _) _ => eapply h_toC; hm
  | |- hom _ _ (Rmult _ _) _ => eapply r_mul; [hm|hm|reflexivity]
  | |- hom _ _ (Rplus _ _) _ => eapply r_add; [hm|hm|reflexivity|reflexivity]
  | |- hom _ _ (Rminus _ _) _ => eapply r_sub; [hm|hm|reflexivity|reflexivity]
  | |- hom _ _ (Rdiv _ _) _ => eapply r_div; [hm|hm|reflexivity]
  | |- hom _ _ (Ropp _) _ => eapply r_opp; hm
  | _ => hm_fun end ].
Lemma energy_squared_hom {T : Type} {NT : Num T} {HT : HomNum lam T} (p p' : R) (m m' : T) : hom lam (1) p p' -> hom lam (1) m m' -> hom lam (2) (energy_squared p m) (energy_squared p' m').
Proof. intros. unfold energy_squared; cbv zeta. hm. Qed.
Ltac hf_energy_squared := lazymatch goal with |- hom _ _ (energy_squared _ _) _ => eapply hom_k; [eapply energy_squared_hom; hm|reflexivity] | _ => fail end.
Ltac hm_fun ::= hf_energy_squared.
Lemma energy_hom {T : Type} {NT : Num T} {HT : HomNum lam T} (p p' : R) (m m' : T) : hom lam (1) p p' -> hom lam (1) m m' -> hom lam (1) (energy p m) (energy p' m').
Proof. intros. unfold energy; cbv zeta. hm. Qed.
Ltac hf_energy := lazymatch goal with |- hom _ _ (energy _ _) _ => eapply hom_k; [eapply energy_hom; hm|reflexivity] | _ => hf_energy_squared end.
Ltac hm_fun ::= hf_energy.
Lemma fermi_distribution_hom {T : Type} {NT : Num T} {HT : HomNum lam T} (en en' : T) (beta beta' : R) (mu mu' : T) : hom lam (1) en en' -> hom lam (-1) beta beta' -> hom lam (1) mu mu' -> hom lam (0) (fermi_distribution en beta mu) (fermi_distribution en' beta' mu').
Proof. intros. unfold fermi_distribution, statistic_distribution_exponential, statistic_distribution_exponential_zero_chempot; cbv zeta. hm. Qed.
Ltac hf_fermi_distribution := lazymatch goal with |- hom _ _ (fermi_distribution _ _ _) _ => eapply hom_k; [eapply fermi_distribution_hom; hm|reflexivity] | _ => hf_energy end.
Ltac hm_fun ::= hf_fermi_distribution.
Lemma fermi_distribution_zero_temp_hom {T : Type} {NT : Num T} {HT : HomNum lam T} (en en' : T) (mu mu' : T) : hom lam (1) en en' -> hom lam (1) mu mu' -> hom lam (0) (fermi_distribution_zero_temp en mu) (fermi_distribution_zero_temp en' mu').
Proof. intros H1 H2. pose proof (h_re 1 en en' H1) as R1. pose proof (h_re 1 mu mu' H2) as R2. unfold fermi_distribution_zero_temp.
  unfold hom in R1, R2. cbn [nmul ofR NumR] in R1, R2. rewrite powerRZ_1 in R1, R2. rewrite R1, R2. destruct (Rlt_dec _ _), (Rlt_dec _ _); try (exfalso; nra); now apply h_const. Qed.
Ltac hf_fermi_distribution_zero_temp := lazymatch goal with |- hom _ _ (fermi_distribution_zero_temp _ _) _ => eapply hom_k; [eapply fermi_distribution_zero_temp_hom; hm|reflexivity] | _ => hf_fermi_distribution end.
Ltac hm_fun ::= hf_fermi_distribution_zero_temp.
Lemma fermi_distribution_double_hom {T : Type} {NT : Num T} {HT : HomNum lam T} (en en' : T) (beta beta' : R) (mu mu' : T) : hom lam (1) en en' -> hom lam (-1) beta beta' -> hom lam (1) mu mu' -> hom lam (0) (fermi_distribution_double en beta mu) (fermi_distribution_double en' beta' mu').
Proof. intros. unfold fermi_distribution_double, statistic_distribution_exponential, statistic_distribution_exponential_zero_chempot; cbv zeta. hm. Qed.
Ltac hf_fermi_distribution_double := lazymatch goal with |- hom _ _ (fermi_distribution_double _ _ _) _ => eapply hom_k; [eapply fermi_distribution_double_hom; hm|reflexivity] | _ => hf_fermi_distribution_zero_temp end.
Ltac hm_fun ::= hf_fermi_distribution_double.
Lemma fermi_distribution_double_zero_temp_hom {T : Type} {NT : Num T} {HT : HomNum lam T} (en en' : T) (mu mu' : T) : hom lam (1) en en' -> hom lam (1) mu mu' -> hom lam (0) (fermi_distribution_double_zero_temp en mu) (fermi_distribution_double_zero_temp en' mu').
Proof. intros. unfold fermi_distribution_double_zero_temp; cbv zeta. hm. Qed.
Ltac hf_fermi_distribution_double_zero_temp := lazymatch goal with |- hom _ _ (fermi_distribution_double_zero_temp _ _) _ => eapply hom_k; [eapply fermi_distribution_double_zero_temp_hom; hm|reflexivity] | _ => hf_fermi_distribution_double end.
Ltac hm_fun ::= hf_fermi_distribution_double_zero_temp.
Lemma fermi_distribution_zero_chempot_hom {T : Type} {NT : Num T} {HT : HomNum lam T} (en en' : T) (beta beta' : R) : hom lam (1) en en' -> hom lam (-1) beta beta' -> hom lam (0) (fermi_distribution_zero_chempot en beta) (fermi_distribution_zero_chempot en' beta').
Proof. intros. unfold fermi_distribution_zero_chempot, statistic_distribution_exponential, statistic_distribution_exponential_zero_chempot; cbv zeta. hm. Qed.
Ltac hf_fermi_distribution_zero_chempot := lazymatch goal with |- hom _ _ (fermi_distribution_zero_chempot _ _) _ => eapply hom_k; [eapply fermi_distribution_zero_chempot_hom; hm|reflexivity] | _ => hf_fermi_distribution_double_zero_temp end.
Ltac hm_fun ::= hf_fermi_distribution_zero_chempot.
Lemma bose_distribution_hom {T : Type} {NT : Num T} {HT : HomNum lam T} (en en' : T) (beta beta' : R) (mu mu' : T) : hom lam (1) en en' -> hom lam (-1) beta beta' -> hom lam (1) mu mu' -> hom lam (0) (bose_distribution en beta mu) (bose_distribution en' beta' mu').
Proof. intros. unfold bose_distribution, statistic_distribution_exponential, statistic_distribution_exponential_zero_chempot; cbv zeta. hm. Qed.
Ltac hf_bose_distribution := lazymatch goal with |- hom _ _ (bose_distribution _ _ _) _ => eapply hom_k; [eapply bose_distribution_hom; hm|reflexivity] | _ => hf_fermi_distribution_zero_chempot end.
Ltac hm_fun ::= hf_bose_distribution.
Lemma bose_distribution_zero_chempot_hom {T : Type} {NT : Num T} {HT : HomNum lam T} (en en' : T) (beta beta' : R) : hom lam (1) en en' -> hom lam (-1) beta beta' -> hom lam (0) (bose_distribution_zero_chempot en beta) (bose_distribution_zero_chempot en' beta').
Proof. intros. unfold bose_distribution_zero_chempot, statistic_distribution_exponential, statistic_distribution_exponential_zero_chempot; cbv zeta. hm. Qed.
Ltac hf_bose_distribution_zero_chempot := lazymatch goal with |- hom _ _ (bose_distribution_zero_chempot _ _) _ => eapply hom_k; [eapply bose_distribution_zero_chempot_hom; hm|reflexivity] | _ => hf_bose_distribution end.
Ltac hm_fun ::= hf_bose_distribution_zero_chempot.
Lemma r_0_hom {T1 : Type} {NT1 : Num T1} {HT1 : HomNum lam T1} {T2 : Type} {NT2 : Num T2} {HT2 : HomNum lam T2} {T3 : Type} {NT3 : Num T3} {HT3 : HomNum lam T3} {T4 : Type} {NT4 : Num T4} {HT4 : HomNum lam T4} (om om' : T1) (p p' : T2) (en en' : T3) (delta delta' : T4) : hom lam (1) om om' -> hom lam (1) p p' -> hom lam (1) en en' -> hom lam (2) delta delta' -> hom lam (2) (r_0 om p en delta) (r_0 om' p' en' delta').
Proof. intros. unfold r_0; cbv zeta. hm. Qed.
Ltac hf_r_0 := lazymatch goal with |- hom _ _ (r_0 _ _ _ _) _ => eapply hom_k; [eapply r_0_hom; hm|reflexivity] | _ => hf_bose_distribution_zero_chempot end.
Ltac hm_fun ::= hf_r_0.
Lemma r_0_same_mass_hom {T1 : Type} {NT1 : Num T1} {HT1 : HomNum lam T1} {T2 : Type} {NT2 : Num T2} {HT2 : HomNum lam T2} {T3 : Type} {NT3 : Num T3} {HT3 : HomNum lam T3} (om om' : T1) (p p' : T2) (en en' : T3) : hom lam (1) om om' -> hom lam (1) p p' -> hom lam (1) en en' -> hom lam (2) (r_0_same_mass om p en) (r_0_same_mass om' p' en').
Proof. intros. unfold r_0_same_mass; cbv zeta. hm. Qed.
Ltac hf_r_0_same_mass := lazymatch goal with |- hom _ _ (r_0_same_mass _ _ _) _ => eapply hom_k; [eapply r_0_same_mass_hom; hm|reflexivity] | _ => hf_r_0 end.
Ltac hm_fun ::= hf_r_0_same_mass.
Lemma tlog_hom {T1 : Type} {NT1 : Num T1} {HT1 : HomNum lam T1} {T2 : Type} {NT2 : Num T2} {HT2 : HomNum lam T2} {T3 : Type} {NT3 : Num T3} {HT3 : HomNum lam T3} {T4 : Type} {NT4 : Num T4} {HT4 : HomNum lam T4} (q q' : R) (om om' : T1) (p p' : T2) (en en' : T3) (delta delta' : T4) : hom lam (1) q q' -> hom lam (1) om om' -> hom lam (1) p p' -> hom lam (1) en en' -> hom lam (2) delta delta' -> hom lam (0) (tlog q om p en delta) (tlog q' om' p' en' delta').
Proof. intros. unfold tlog; cbv zeta. hm. Qed.
Ltac hf_tlog := lazymatch goal with |- hom _ _ (tlog _ _ _ _ _) _ => eapply hom_k; [eapply tlog_hom; hm|reflexivity] | _ => hf_r_0_same_mass end.
Ltac hm_fun ::= hf_tlog.
Lemma tlog_same_mass_hom {T1 : Type} {NT1 : Num T1} {HT1 : HomNum lam T1} {T2 : Type} {NT2 : Num T2} {HT2 : HomNum lam T2} {T3 : Type} {NT3 : Num T3} {HT3 : HomNum lam T3} (q q' : R) (om om' : T1) (p p' : T2) (en en' : T3) : hom lam (1) q q' -> hom lam (1) om om' -> hom lam (1) p p' -> hom lam (1) en en' -> hom lam (0) (tlog_same_mass q om p en) (tlog_same_mass q' om' p' en').
Proof. intros. unfold tlog_same_mass; cbv zeta. hm. Qed.
Ltac hf_tlog_same_mass := lazymatch goal with |- hom _ _ (tlog_same_mass _ _ _ _) _ => eapply hom_k; [eapply tlog_same_mass_hom; hm|reflexivity] | _ => hf_tlog end.
Ltac hm_fun ::= hf_tlog_same_mass.
Lemma tlog_zero_mass_hom {T1 : Type} {NT1 : Num T1} {HT1 : HomNum lam T1} {T2 : Type} {NT2 : Num T2} {HT2 : HomNum lam T2} (q q' : R) (om om' : T1) (p p' : T2) : hom lam (1) q q' -> hom lam (1) om om' -> hom lam (1) p p' -> hom lam (0) (tlog_zero_mass q om p) (tlog_zero_mass q' om' p').
Proof. intros. unfold tlog_zero_mass; cbv zeta. hm. Qed.
Ltac hf_tlog_zero_mass := lazymatch goal with |- hom _ _ (tlog_zero_mass _ _ _) _ => eapply hom_k; [eapply tlog_zero_mass_hom; hm|reflexivity] | _ => hf_tlog_same_mass end.
Ltac hm_fun ::= hf_tlog_zero_mass.
Lemma tlog_l_hom {T1 : Type} {NT1 : Num T1} {HT1 : HomNum lam T1} {T2 : Type} {NT2 : Num T2} {HT2 : HomNum lam T2} {T3 : Type} {NT3 : Num T3} {HT3 : HomNum lam T3} {T4 : Type} {NT4 : Num T4} {HT4 : HomNum lam T4} (q q' : R) (om om' : T1) (p p' : T2) (en en' : T3) (delta delta' : T4) : hom lam (1) q q' -> hom lam (1) om om' -> hom lam (1) p p' -> hom lam (1) en en' -> hom lam (2) delta delta' -> hom lam (4) (tlog_l q om p en delta) (tlog_l q' om' p' en' delta').
Proof. intros. unfold tlog_l; cbv zeta. hm. Qed.
Ltac hf_tlog_l := lazymatch goal with |- hom _ _ (tlog_l _ _ _ _ _) _ => eapply hom_k; [eapply tlog_l_hom; hm|reflexivity] | _ => hf_tlog_zero_mass end.
Ltac hm_fun ::= hf_tlog_l.
Lemma tlog_l_same_mass_hom {T1 : Type} {NT1 : Num T1} {HT1 : HomNum lam T1} {T2 : Type} {NT2 : Num T2} {HT2 : HomNum lam T2} {T3 : Type} {NT3 : Num T3} {HT3 : HomNum lam T3} (q q' : R) (om om' : T1) (p p' : T2) (en en' : T3) : hom lam (1) q q' -> hom lam (1) om om' -> hom lam (1) p p' -> hom lam (1) en en' -> hom lam (4) (tlog_l_same_mass q om p en) (tlog_l_same_mass q' om' p' en').
Proof. intros. unfold tlog_l_same_mass; cbv zeta. hm. Qed.
Ltac hf_tlog_l_same_mass := lazymatch goal with |- hom _ _ (tlog_l_same_mass _ _ _ _) _ => eapply hom_k; [eapply tlog_l_same_mass_hom; hm|reflexivity] | _ => hf_tlog_l end.
Ltac hm_fun ::= hf_tlog_l_same_mass.
Lemma tlog_l_zero_mass_hom {T1 : Type} {NT1 : Num T1} {HT1 : HomNum lam T1} {T2 : Type} {NT2 : Num T2} {HT2 : HomNum lam T2} (q q' : R) (om om' : T1) (p p' : T2) : hom lam (1) q q' -> hom lam (1) om om' -> hom lam (1) p p' -> hom lam (4) (tlog_l_zero_mass q om p) (tlog_l_zero_mass q' om' p').
Proof. intros. unfold tlog_l_zero_mass; cbv zeta. hm. Qed.
Ltac hf_tlog_l_zero_mass := lazymatch goal with |- hom _ _ (tlog_l_zero_mass _ _ _) _ => eapply hom_k; [eapply tlog_l_zero_mass_hom; hm|reflexivity] | _ => hf_tlog_l_same_mass end.
Ltac hm_fun ::= hf_tlog_l_zero_mass.
Lemma tlog_t_hom {T1 : Type} {NT1 : Num T1} {HT1 : HomNum lam T1} {T2 : Type} {NT2 : Num T2} {HT2 : HomNum lam T2} {T3 : Type} {NT3 : Num T3} {HT3 : HomNum lam T3} (q q' : R) (om om' : T1) (p p' : R) (en en' : T2) (delta delta' : T3) : hom lam (1) q q' -> hom lam (1) om om' -> hom lam (1) p p' -> hom lam (1) en en' -> hom lam (2) delta delta' -> hom lam (4) (tlog_t q om p en delta) (tlog_t q' om' p' en' delta').
Proof. intros. unfold tlog_t; cbv zeta. hm. Qed.
Ltac hf_tlog_t := lazymatch goal with |- hom _ _ (tlog_t _ _ _ _ _) _ => eapply hom_k; [eapply tlog_t_hom; hm|reflexivity] | _ => hf_tlog_l_zero_mass end.
Ltac hm_fun ::= hf_tlog_t.
Lemma tlog_t_same_mass_hom {T1 : Type} {NT1 : Num T1} {HT1 : HomNum lam T1} {T2 : Type} {NT2 : Num T2} {HT2 : HomNum lam T2} (q q' : R) (om om' : T1) (p p' : R) (en en' : T2) : hom lam (1) q q' -> hom lam (1) om om' -> hom lam (1) p p' -> hom lam (1) en en' -> hom lam (4) (tlog_t_same_mass q om p en) (tlog_t_same_mass q' om' p' en').
Proof. intros. unfold tlog_t_same_mass; cbv zeta. hm. Qed.
Ltac hf_tlog_t_same_mass := lazymatch goal with |- hom _ _ (tlog_t_same_mass _ _ _ _) _ => eapply hom_k; [eapply tlog_t_same_mass_hom; hm|reflexivity] | _ => hf_tlog_t end.
Ltac hm_fun ::= hf_tlog_t_same_mass.
Lemma tlog_t_zero_mass_hom {T : Type} {NT : Num T} {HT : HomNum lam T} (q q' : R) (om om' : T) (p p' : R) : hom lam (1) q q' -> hom lam (1) om om' -> hom lam (1) p p' -> hom lam (4) (tlog_t_zero_mass q om p) (tlog_t_zero_mass q' om' p').
Proof. intros. unfold tlog_t_zero_mass; cbv zeta. hm. Qed.
Ltac hf_tlog_t_zero_mass := lazymatch goal with |- hom _ _ (tlog_t_zero_mass _ _ _) _ => eapply hom_k; [eapply tlog_t_zero_mass_hom; hm|reflexivity] | _ => hf_tlog_t_same_mass end.
Ltac hm_fun ::= hf_tlog_t_zero_mass.
Lemma j_m_i_hom {T : Type} {NT : Num T} {HT : HomNum lam T} (q q' : R) (m m' : T) (beta beta' : R) : hom lam (1) q q' -> hom lam (1) m m' -> hom lam (-1) beta beta' -> hom lam (1) (j_m_i q m beta) (j_m_i q' m' beta').
Proof. intros. unfold j_m_i; cbv zeta. hm. Qed.
Ltac hf_j_m_i := lazymatch goal with |- hom _ _ (j_m_i _ _ _) _ => eapply hom_k; [eapply j_m_i_hom; hm|reflexivity] | _ => hf_tlog_t_zero_mass end.
Ltac hm_fun ::= hf_j_m_i.
Lemma j_0_i_hom  (q q' : R) (beta beta' : R) : hom lam (1) q q' -> hom lam (-1) beta beta' -> hom lam (1) (j_0_i q beta) (j_0_i q' beta').
Proof. intros. unfold j_0_i; cbv zeta. hm. Qed.
Ltac hf_j_0_i := lazymatch goal with |- hom _ _ (j_0_i _ _) _ => eapply hom_k; [eapply j_0_i_hom; hm|reflexivity] | _ => hf_j_m_i end.
Ltac hm_fun ::= hf_j_0_i.
Lemma j_m_l_i_hom {T : Type} {NT : Num T} {HT : HomNum lam T} (q q' : R) (m m' : T) (beta beta' : R) : hom lam (1) q q' -> hom lam (1) m m' -> hom lam (-1) beta beta' -> hom lam (3) (j_m_l_i q m beta) (j_m_l_i q' m' beta').
Proof. intros. unfold j_m_l_i; cbv zeta. hm. Qed.
Ltac hf_j_m_l_i := lazymatch goal with |- hom _ _ (j_m_l_i _ _ _) _ => eapply hom_k; [eapply j_m_l_i_hom; hm|reflexivity] | _ => hf_j_0_i end.
Ltac hm_fun ::= hf_j_m_l_i.
Lemma j_0_l_i_hom  (q q' : R) (beta beta' : R) : hom lam (1) q q' -> hom lam (-1) beta beta' -> hom lam (3) (j_0_l_i q beta) (j_0_l_i q' beta').
Proof. intros. unfold j_0_l_i; cbv zeta. hm. Qed.
Ltac hf_j_0_l_i := lazymatch goal with |- hom _ _ (j_0_l_i _ _) _ => eapply hom_k; [eapply j_0_l_i_hom; hm|reflexivity] | _ => hf_j_m_l_i end.
Ltac hm_fun ::= hf_j_0_l_i.
Lemma j_m_t_i_hom {T : Type} {NT : Num T} {HT : HomNum lam T} (q q' : R) (m m' : T) (beta beta' : R) : hom lam (1) q q' -> hom lam (1) m m' -> hom lam (-1) beta beta' -> hom lam (3) (j_m_t_i q m beta) (j_m_t_i q' m' beta').
Proof. intros. unfold j_m_t_i; cbv zeta. hm. Qed.
Ltac hf_j_m_t_i := lazymatch goal with |- hom _ _ (j_m_t_i _ _ _) _ => eapply hom_k; [eapply j_m_t_i_hom; hm|reflexivity] | _ => hf_j_0_l_i end.
Ltac hm_fun ::= hf_j_m_t_i.
Lemma j_0_t_i_hom  (q q' : R) (beta beta' : R) : hom lam (1) q q' -> hom lam (-1) beta beta' -> hom lam (3) (j_0_t_i q beta) (j_0_t_i q' beta').
Proof. intros. unfold j_0_t_i; cbv zeta. hm. Qed.
Ltac hf_j_0_t_i := lazymatch goal with |- hom _ _ (j_0_t_i _ _) _ => eapply hom_k; [eapply j_0_t_i_hom; hm|reflexivity] | _ => hf_j_m_t_i end.
Ltac hm_fun ::= hf_j_0_t_i.
Lemma i_m_m_i_hom {T1 : Type} {NT1 : Num T1} {HT1 : HomNum lam T1} {T2 : Type} {NT2 : Num T2} {HT2 : HomNum lam T2} {T3 : Type} {NT3 : Num T3} {HT3 : HomNum lam T3} (q q' : R) (om om' : T1) (p p' : R) (m1 m1' : T2) (m2 m2' : T3) (beta beta' : R) : hom lam (1) q q' -> hom lam (1) om om' -> hom lam (1) p p' -> hom lam (1) m1 m1' -> hom lam (1) m2 m2' -> hom lam (-1) beta beta' -> hom lam (-1) (i_m_m_i q om p m1 m2 beta) (i_m_m_i q' om' p' m1' m2' beta').
Proof. intros. unfold i_m_m_i; cbv zeta. hm. Qed.
Ltac hf_i_m_m_i := lazymatch goal with |- hom _ _ (i_m_m_i _ _ _ _ _ _) _ => eapply hom_k; [eapply i_m_m_i_hom; hm|reflexivity] | _ => hf_j_0_t_i end.
Ltac hm_fun ::= hf_i_m_m_i.
Lemma i_m_m_i_same_mass_hom {T1 : Type} {NT1 : Num T1} {HT1 : HomNum lam T1} {T2 : Type} {NT2 : Num T2} {HT2 : HomNum lam T2} {T3 : Type} {NT3 : Num T3} {HT3 : HomNum lam T3} (q q' : R) (om om' : T1) (p p' : T2) (m m' : T3) (beta beta' : R) : hom lam (1) q q' -> hom lam (1) om om' -> hom lam (1) p p' -> hom lam (1) m m' -> hom lam (-1) beta beta' -> hom lam (-1) (i_m_m_i_same_mass q om p m beta) (i_m_m_i_same_mass q' om' p' m' beta').
Proof. intros. unfold i_m_m_i_same_mass; cbv zeta. hm. Qed.
Ltac hf_i_m_m_i_same_mass := lazymatch goal with |- hom _ _ (i_m_m_i_same_mass _ _ _ _ _) _ => eapply hom_k; [eapply i_m_m_i_same_mass_hom; hm|reflexivity] | _ => hf_i_m_m_i end.
Ltac hm_fun ::= hf_i_m_m_i_same_mass.
Lemma i_m_0_i_hom {T1 : Type} {NT1 : Num T1} {HT1 : HomNum lam T1} {T2 : Type} {NT2 : Num T2} {HT2 : HomNum lam T2} {T3 : Type} {NT3 : Num T3} {HT3 : HomNum lam T3} (q q' : R) (om om' : T1) (p p' : T2) (m m' : T3) (beta beta' : R) : hom lam (1) q q' -> hom lam (1) om om' -> hom lam (1) p p' -> hom lam (1) m m' -> hom lam (-1) beta beta' -> hom lam (-1) (i_m_0_i q om p m beta) (i_m_0_i q' om' p' m' beta').
Proof. intros. unfold i_m_0_i; cbv zeta. hm. Qed.
Ltac hf_i_m_0_i := lazymatch goal with |- hom _ _ (i_m_0_i _ _ _ _ _) _ => eapply hom_k; [eapply i_m_0_i_hom; hm|reflexivity] | _ => hf_i_m_m_i_same_mass end.
Ltac hm_fun ::= hf_i_m_0_i.
Lemma i_0_0_i_hom {T : Type} {NT : Num T} {HT : HomNum lam T} (q q' : R) (om om' : T) (p p' : R) (beta beta' : R) : hom lam (1) q q' -> hom lam (1) om om' -> hom lam (1) p p' -> hom lam (-1) beta beta' -> hom lam (-1) (i_0_0_i q om p beta) (i_0_0_i q' om' p' beta').
Proof. intros. unfold i_0_0_i; cbv zeta. hm. Qed.
Ltac hf_i_0_0_i := lazymatch goal with |- hom _ _ (i_0_0_i _ _ _ _) _ => eapply hom_k; [eapply i_0_0_i_hom; hm|reflexivity] | _ => hf_i_m_0_i end.
Ltac hm_fun ::= hf_i_0_0_i.
Lemma i_m_m_l_i_hom {T1 : Type} {NT1 : Num T1} {HT1 : HomNum lam T1} {T2 : Type} {NT2 : Num T2} {HT2 : HomNum lam T2} {T3 : Type} {NT3 : Num T3} {HT3 : HomNum lam T3} (q q' : R) (om om' : T1) (p p' : R) (m1 m1' : T2) (m2 m2' : T3) (beta beta' : R) : hom lam (1) q q' -> hom lam (1) om om' -> hom lam (1) p p' -> hom lam (1) m1 m1' -> hom lam (1) m2 m2' -> hom lam (-1) beta beta' -> hom lam (1) (i_m_m_l_i q om p m1 m2 beta) (i_m_m_l_i q' om' p' m1' m2' beta').
Proof. intros. unfold i_m_m_l_i; cbv zeta. hm. Qed.
Ltac hf_i_m_m_l_i := lazymatch goal with |- hom _ _ (i_m_m_l_i _ _ _ _ _ _) _ => eapply hom_k; [eapply i_m_m_l_i_hom; hm|reflexivity] | _ => hf_i_0_0_i end.
Ltac hm_fun ::= hf_i_m_m_l_i.
Lemma i_m_m_l_i_same_mass_hom {T1 : Type} {NT1 : Num T1} {HT1 : HomNum lam T1} {T2 : Type} {NT2 : Num T2} {HT2 : HomNum lam T2} {T3 : Type} {NT3 : Num T3} {HT3 : HomNum lam T3} (q q' : R) (om om' : T1) (p p' : T2) (m m' : T3) (beta beta' : R) : hom lam (1) q q' -> hom lam (1) om om' -> hom lam (1) p p' -> hom lam (1) m m' -> hom lam (-1) beta beta' -> hom lam (1) (i_m_m_l_i_same_mass q om p m beta) (i_m_m_l_i_same_mass q' om' p' m' beta').
Proof. intros. unfold i_m_m_l_i_same_mass; cbv zeta. hm. Qed.
Ltac hf_i_m_m_l_i_same_mass := lazymatch goal with |- hom _ _ (i_m_m_l_i_same_mass _ _ _ _ _) _ => eapply hom_k; [eapply i_m_m_l_i_same_mass_hom; hm|reflexivity] | _ => hf_i_m_m_l_i end.
Ltac hm_fun ::= hf_i_m_m_l_i_same_mass.
Lemma i_m_0_l_i_hom {T1 : Type} {NT1 : Num T1} {HT1 : HomNum lam T1} {T2 : Type} {NT2 : Num T2} {HT2 : HomNum lam T2} {T3 : Type} {NT3 : Num T3} {HT3 : HomNum lam T3} (q q' : R) (om om' : T1) (p p' : T2) (m m' : T3) (beta beta' : R) : hom lam (1) q q' -> hom lam (1) om om' -> hom lam (1) p p' -> hom lam (1) m m' -> hom lam (-1) beta beta' -> hom lam (1) (i_m_0_l_i q om p m beta) (i_m_0_l_i q' om' p' m' beta').
Proof. intros. unfold i_m_0_l_i; cbv zeta. hm. Qed.
Ltac hf_i_m_0_l_i := lazymatch goal with |- hom _ _ (i_m_0_l_i _ _ _ _ _) _ => eapply hom_k; [eapply i_m_0_l_i_hom; hm|reflexivity] | _ => hf_i_m_m_l_i_same_mass end.
Ltac hm_fun ::= hf_i_m_0_l_i.
Lemma i_0_0_l_i_hom {T1 : Type} {NT1 : Num T1} {HT1 : HomNum lam T1} {T2 : Type} {NT2 : Num T2} {HT2 : HomNum lam T2} (q q' : R) (om om' : T1) (p p' : T2) (beta beta' : R) : hom lam (1) q q' -> hom lam (1) om om' -> hom lam (1) p p' -> hom lam (-1) beta beta' -> hom lam (1) (i_0_0_l_i q om p beta) (i_0_0_l_i q' om' p' beta').
Proof. intros. unfold i_0_0_l_i; cbv zeta. hm. Qed.
Ltac hf_i_0_0_l_i := lazymatch goal with |- hom _ _ (i_0_0_l_i _ _ _ _) _ => eapply hom_k; [eapply i_0_0_l_i_hom; hm|reflexivity] | _ => hf_i_m_0_l_i end.
Ltac hm_fun ::= hf_i_0_0_l_i.
Lemma i_m_m_t_i_hom {T1 : Type} {NT1 : Num T1} {HT1 : HomNum lam T1} {T2 : Type} {NT2 : Num T2} {HT2 : HomNum lam T2} {T3 : Type} {NT3 : Num T3} {HT3 : HomNum lam T3} (q q' : R) (om om' : T1) (p p' : R) (m1 m1' : T2) (m2 m2' : T3) (beta beta' : R) : hom lam (1) q q' -> hom lam (1) om om' -> hom lam (1) p p' -> hom lam (1) m1 m1' -> hom lam (1) m2 m2' -> hom lam (-1) beta beta' -> hom lam (1) (i_m_m_t_i q om p m1 m2 beta) (i_m_m_t_i q' om' p' m1' m2' beta').
Proof. intros. unfold i_m_m_t_i; cbv zeta. hm. Qed.
Ltac hf_i_m_m_t_i := lazymatch goal with |- hom _ _ (i_m_m_t_i _ _ _ _ _ _) _ => eapply hom_k; [eapply i_m_m_t_i_hom; hm|reflexivity] | _ => hf_i_0_0_l_i end.
Ltac hm_fun ::= hf_i_m_m_t_i.
Lemma i_m_m_t_i_same_mass_hom {T1 : Type} {NT1 : Num T1} {HT1 : HomNum lam T1} {T2 : Type} {NT2 : Num T2} {HT2 : HomNum lam T2} (q q' : R) (om om' : T1) (p p' : R) (m m' : T2) (beta beta' : R) : hom lam (1) q q' -> hom lam (1) om om' -> hom lam (1) p p' -> hom lam (1) m m' -> hom lam (-1) beta beta' -> hom lam (1) (i_m_m_t_i_same_mass q om p m beta) (i_m_m_t_i_same_mass q' om' p' m' beta').
Proof. intros. unfold i_m_m_t_i_same_mass; cbv zeta. hm. Qed.
Ltac hf_i_m_m_t_i_same_mass := lazymatch goal with |- hom _ _ (i_m_m_t_i_same_mass _ _ _ _ _) _ => eapply hom_k; [eapply i_m_m_t_i_same_mass_hom; hm|reflexivity] | _ => hf_i_m_m_t_i end.
Ltac hm_fun ::= hf_i_m_m_t_i_same_mass.
Lemma i_m_0_t_i_hom {T1 : Type} {NT1 : Num T1} {HT1 : HomNum lam T1} {T2 : Type} {NT2 : Num T2} {HT2 : HomNum lam T2} (q q' : R) (om om' : T1) (p p' : R) (m m' : T2) (beta beta' : R) : hom lam (1) q q' -> hom lam (1) om om' -> hom lam (1) p p' -> hom lam (1) m m' -> hom lam (-1) beta beta' -> hom lam (1) (i_m_0_t_i q om p m beta) (i_m_0_t_i q' om' p' m' beta').
Proof. intros. unfold i_m_0_t_i; cbv zeta. hm. Qed.
Ltac hf_i_m_0_t_i := lazymatch goal with |- hom _ _ (i_m_0_t_i _ _ _ _ _) _ => eapply hom_k; [eapply i_m_0_t_i_hom; hm|reflexivity] | _ => hf_i_m_m_t_i_same_mass end.
Ltac hm_fun ::= hf_i_m_0_t_i.
Lemma i_0_0_t_i_hom {T : Type} {NT : Num T} {HT : HomNum lam T} (q q' : R) (om om' : T) (p p' : R) (beta beta' : R) : hom lam (1) q q' -> hom lam (1) om om' -> hom lam (1) p p' -> hom lam (-1) beta beta' -> hom lam (1) (i_0_0_t_i q om p beta) (i_0_0_t_i q' om' p' beta').
Proof. intros. unfold i_0_0_t_i; cbv zeta. hm. Qed.
Ltac hf_i_0_0_t_i := lazymatch goal with |- hom _ _ (i_0_0_t_i _ _ _ _) _ => eapply hom_k; [eapply i_0_0_t_i_hom; hm|reflexivity] | _ => hf_i_m_0_t_i end.
Ltac hm_fun ::= hf_i_0_0_t_i.
Lemma d_j_m_i_hom {T : Type} {NT : Num T} {HT : HomNum lam T} (q q' : R) (m m' : T) (beta beta' : R) : hom lam (1) q q' -> hom lam (1) m m' -> hom lam (-1) beta beta' -> hom lam (-1) (d_j_m_i q m beta) (d_j_m_i q' m' beta').
Proof. intros. unfold d_j_m_i; cbv zeta. hm. Qed.
Ltac hf_d_j_m_i := lazymatch goal with |- hom _ _ (d_j_m_i _ _ _) _ => eapply hom_k; [eapply d_j_m_i_hom; hm|reflexivity] | _ => hf_i_0_0_t_i end.
Ltac hm_fun ::= hf_d_j_m_i.
Lemma d_j_0_i_hom  (q q' : R) (beta beta' : R) : hom lam (1) q q' -> hom lam (-1) beta beta' -> hom lam (-1) (d_j_0_i q beta) (d_j_0_i q' beta').
Proof. intros. unfold d_j_0_i; cbv zeta. hm. Qed.
Ltac hf_d_j_0_i := lazymatch goal with |- hom _ _ (d_j_0_i _ _) _ => eapply hom_k; [eapply d_j_0_i_hom; hm|reflexivity] | _ => hf_d_j_m_i end.
Ltac hm_fun ::= hf_d_j_0_i.
Lemma d2_j_m_i_hom {T : Type} {NT : Num T} {HT : HomNum lam T} (q q' : R) (m m' : T) (beta beta' : R) : hom lam (1) q q' -> hom lam (1) m m' -> hom lam (-1) beta beta' -> hom lam (-3) (d2_j_m_i q m beta) (d2_j_m_i q' m' beta').
Proof. intros. unfold d2_j_m_i; cbv zeta. hm. Qed.
Ltac hf_d2_j_m_i := lazymatch goal with |- hom _ _ (d2_j_m_i _ _ _) _ => eapply hom_k; [eapply d2_j_m_i_hom; hm|reflexivity] | _ => hf_d_j_0_i end.
Ltac hm_fun ::= hf_d2_j_m_i.
Lemma d2_j_0_i_hom  (q q' : R) (beta beta' : R) : hom lam (1) q q' -> hom lam (-1) beta beta' -> hom lam (-3) (d2_j_0_i q beta) (d2_j_0_i q' beta').
Proof. intros. unfold d2_j_0_i; cbv zeta. hm. Qed.
Ltac hf_d2_j_0_i := lazymatch goal with |- hom _ _ (d2_j_0_i _ _) _ => eapply hom_k; [eapply d2_j_0_i_hom; hm|reflexivity] | _ => hf_d2_j_m_i end.
Ltac hm_fun ::= hf_d2_j_0_i.
Lemma d_j_m_l_i_hom {T : Type} {NT : Num T} {HT : HomNum lam T} (q q' : R) (m m' : T) (beta beta' : R) : hom lam (1) q q' -> hom lam (1) m m' -> hom lam (-1) beta beta' -> hom lam (1) (d_j_m_l_i q m beta) (d_j_m_l_i q' m' beta').
Proof. intros. unfold d_j_m_l_i; cbv zeta. hm. Qed.
Ltac hf_d_j_m_l_i := lazymatch goal with |- hom _ _ (d_j_m_l_i _ _ _) _ => eapply hom_k; [eapply d_j_m_l_i_hom; hm|reflexivity] | _ => hf_d2_j_0_i end.
Ltac hm_fun ::= hf_d_j_m_l_i.
Lemma d_j_0_l_i_hom  (q q' : R) (beta beta' : R) : hom lam (1) q q' -> hom lam (-1) beta beta' -> hom lam (1) (d_j_0_l_i q beta) (d_j_0_l_i q' beta').
Proof. intros. unfold d_j_0_l_i; cbv zeta. hm. Qed.
Ltac hf_d_j_0_l_i := lazymatch goal with |- hom _ _ (d_j_0_l_i _ _) _ => eapply hom_k; [eapply d_j_0_l_i_hom; hm|reflexivity] | _ => hf_d_j_m_l_i end.
Ltac hm_fun ::= hf_d_j_0_l_i.
Lemma d2_j_m_l_i_hom {T : Type} {NT : Num T} {HT : HomNum lam T} (q q' : R) (m m' : T) (beta beta' : R) : hom lam (1) q q' -> hom lam (1) m m' -> hom lam (-1) beta beta' -> hom lam (-1) (d2_j_m_l_i q m beta) (d2_j_m_l_i q' m' beta').
Proof. intros. unfold d2_j_m_l_i; cbv zeta. hm. Qed.
Ltac hf_d2_j_m_l_i := lazymatch goal with |- hom _ _ (d2_j_m_l_i _ _ _) _ => eapply hom_k; [eapply d2_j_m_l_i_hom; hm|reflexivity] | _ => hf_d_j_0_l_i end.
Ltac hm_fun ::= hf_d2_j_m_l_i.
Lemma d2_j_0_l_i_hom  (q q' : R) (beta beta' : R) : hom lam (1) q q' -> hom lam (-1) beta beta' -> hom lam (-1) (d2_j_0_l_i q beta) (d2_j_0_l_i q' beta').
Proof. intros. unfold d2_j_0_l_i; cbv zeta. hm. Qed.
Ltac hf_d2_j_0_l_i := lazymatch goal with |- hom _ _ (d2_j_0_l_i _ _) _ => eapply hom_k; [eapply d2_j_0_l_i_hom; hm|reflexivity] | _ => hf_d2_j_m_l_i end.
Ltac hm_fun ::= hf_d2_j_0_l_i.
Lemma d_j_m_t_i_hom {T : Type} {NT : Num T} {HT : HomNum lam T} (q q' : R) (m m' : T) (beta beta' : R) : hom lam (1) q q' -> hom lam (1) m m' -> hom lam (-1) beta beta' -> hom lam (1) (d_j_m_t_i q m beta) (d_j_m_t_i q' m' beta').
Proof. intros. unfold d_j_m_t_i; cbv zeta. hm. Qed.
Ltac hf_d_j_m_t_i := lazymatch goal with |- hom _ _ (d_j_m_t_i _ _ _) _ => eapply hom_k; [eapply d_j_m_t_i_hom; hm|reflexivity] | _ => hf_d2_j_0_l_i end.
Ltac hm_fun ::= hf_d_j_m_t_i.
Lemma d_j_0_t_i_hom  (q q' : R) (beta beta' : R) : hom lam (1) q q' -> hom lam (-1) beta beta' -> hom lam (1) (d_j_0_t_i q beta) (d_j_0_t_i q' beta').
Proof. intros. unfold d_j_0_t_i; cbv zeta. hm. Qed.
Ltac hf_d_j_0_t_i := lazymatch goal with |- hom _ _ (d_j_0_t_i _ _) _ => eapply hom_k; [eapply d_j_0_t_i_hom; hm|reflexivity] | _ => hf_d_j_m_t_i end.
Ltac hm_fun ::= hf_d_j_0_t_i.
Lemma d2_j_m_t_i_hom {T : Type} {NT : Num T} {HT : HomNum lam T} (q q' : R) (m m' : T) (beta beta' : R) : hom lam (1) q q' -> hom lam (1) m m' -> hom lam (-1) beta beta' -> hom lam (-1) (d2_j_m_t_i q m beta) (d2_j_m_t_i q' m' beta').
Proof. intros. unfold d2_j_m_t_i; cbv zeta. hm. Qed.
Ltac hf_d2_j_m_t_i := lazymatch goal with |- hom _ _ (d2_j_m_t_i _ _ _) _ => eapply hom_k; [eapply d2_j_m_t_i_hom; hm|reflexivity] | _ => hf_d_j_0_t_i end.
Ltac hm_fun ::= hf_d2_j_m_t_i.
Lemma d2_j_0_t_i_hom  (q q' : R) (beta beta' : R) : hom lam (1) q q' -> hom lam (-1) beta beta' -> hom lam (-1) (d2_j_0_t_i q beta) (d2_j_0_t_i q' beta').
Proof. intros. unfold d2_j_0_t_i; cbv zeta. hm. Qed.
Ltac hf_d2_j_0_t_i := lazymatch goal with |- hom _ _ (d2_j_0_t_i _ _) _ => eapply hom_k; [eapply d2_j_0_t_i_hom; hm|reflexivity] | _ => hf_d2_j_m_t_i end.
Ltac hm_fun ::= hf_d2_j_0_t_i.
Lemma d_i_m_m_i_hom {T1 : Type} {NT1 : Num T1} {HT1 : HomNum lam T1} {T2 : Type} {NT2 : Num T2} {HT2 : HomNum lam T2} {T3 : Type} {NT3 : Num T3} {HT3 : HomNum lam T3} (q q' : R) (om om' : T1) (p p' : R) (m1 m1' : T2) (m2 m2' : T3) (beta beta' : R) : hom lam (1) q q' -> hom lam (1) om om' -> hom lam (1) p p' -> hom lam (1) m1 m1' -> hom lam (1) m2 m2' -> hom lam (-1) beta beta' -> hom lam (-3) (d_i_m_m_i q om p m1 m2 beta) (d_i_m_m_i q' om' p' m1' m2' beta').
Proof. intros. unfold d_i_m_m_i; cbv zeta. hm. Qed.
Ltac hf_d_i_m_m_i := lazymatch goal with |- hom _ _ (d_i_m_m_i _ _ _ _ _ _) _ => eapply hom_k; [eapply d_i_m_m_i_hom; hm|reflexivity] | _ => hf_d2_j_0_t_i end.
Ltac hm_fun ::= hf_d_i_m_m_i.
Lemma d_i_m_m_i_same_mass_hom {T1 : Type} {NT1 : Num T1} {HT1 : HomNum lam T1} {T2 : Type} {NT2 : Num T2} {HT2 : HomNum lam T2} {T3 : Type} {NT3 : Num T3} {HT3 : HomNum lam T3} (q q' : R) (om om' : T1) (p p' : T2) (m m' : T3) (beta beta' : R) : hom lam (1) q q' -> hom lam (1) om om' -> hom lam (1) p p' -> hom lam (1) m m' -> hom lam (-1) beta beta' -> hom lam (-3) (d_i_m_m_i_same_mass q om p m beta) (d_i_m_m_i_same_mass q' om' p' m' beta').
Proof. intros. unfold d_i_m_m_i_same_mass; cbv zeta. hm. Qed.
Ltac hf_d_i_m_m_i_same_mass := lazymatch goal with |- hom _ _ (d_i_m_m_i_same_mass _ _ _ _ _) _ => eapply hom_k; [eapply d_i_m_m_i_same_mass_hom; hm|reflexivity] | _ => hf_d_i_m_m_i end.
Ltac hm_fun ::= hf_d_i_m_m_i_same_mass.
Lemma d_i_m_0_i_hom {T1 : Type} {NT1 : Num T1} {HT1 : HomNum lam T1} {T2 : Type} {NT2 : Num T2} {HT2 : HomNum lam T2} {T3 : Type} {NT3 : Num T3} {HT3 : HomNum lam T3} (q q' : R) (om om' : T1) (p p' : T2) (m m' : T3) (beta beta' : R) : hom lam (1) q q' -> hom lam (1) om om' -> hom lam (1) p p' -> hom lam (1) m m' -> hom lam (-1) beta beta' -> hom lam (-3) (d_i_m_0_i q om p m beta) (d_i_m_0_i q' om' p' m' beta').
Proof. intros. unfold d_i_m_0_i; cbv zeta. hm. Qed.
Ltac hf_d_i_m_0_i := lazymatch goal with |- hom _ _ (d_i_m_0_i _ _ _ _ _) _ => eapply hom_k; [eapply d_i_m_0_i_hom; hm|reflexivity] | _ => hf_d_i_m_m_i_same_mass end.
Ltac hm_fun ::= hf_d_i_m_0_i.
Lemma d_i_0_0_i_hom {T : Type} {NT : Num T} {HT : HomNum lam T} (q q' : R) (om om' : T) (p p' : R) (beta beta' : R) : hom lam (1) q q' -> hom lam (1) om om' -> hom lam (1) p p' -> hom lam (-1) beta beta' -> hom lam (-3) (d_i_0_0_i q om p beta) (d_i_0_0_i q' om' p' beta').
Proof. intros. unfold d_i_0_0_i; cbv zeta. hm. Qed.
Ltac hf_d_i_0_0_i := lazymatch goal with |- hom _ _ (d_i_0_0_i _ _ _ _) _ => eapply hom_k; [eapply d_i_0_0_i_hom; hm|reflexivity] | _ => hf_d_i_m_0_i end.
Ltac hm_fun ::= hf_d_i_0_0_i.
Lemma d_i_m_m_l_i_hom {T1 : Type} {NT1 : Num T1} {HT1 : HomNum lam T1} {T2 : Type} {NT2 : Num T2} {HT2 : HomNum lam T2} {T3 : Type} {NT3 : Num T3} {HT3 : HomNum lam T3} (q q' : R) (om om' : T1) (p p' : R) (m1 m1' : T2) (m2 m2' : T3) (beta beta' : R) : hom lam (1) q q' -> hom lam (1) om om' -> hom lam (1) p p' -> hom lam (1) m1 m1' -> hom lam (1) m2 m2' -> hom lam (-1) beta beta' -> hom lam (-1) (d_i_m_m_l_i q om p m1 m2 beta) (d_i_m_m_l_i q' om' p' m1' m2' beta').
Proof. intros. unfold d_i_m_m_l_i; cbv zeta. hm. Qed.
Ltac hf_d_i_m_m_l_i := lazymatch goal with |- hom _ _ (d_i_m_m_l_i _ _ _ _ _ _) _ => eapply hom_k; [eapply d_i_m_m_l_i_hom; hm|reflexivity] | _ => hf_d_i_0_0_i end.
Ltac hm_fun ::= hf_d_i_m_m_l_i.
Lemma d_i_m_m_l_i_same_mass_hom {T1 : Type} {NT1 : Num T1} {HT1 : HomNum lam T1} {T2 : Type} {NT2 : Num T2} {HT2 : HomNum lam T2} {T3 : Type} {NT3 : Num T3} {HT3 : HomNum lam T3} (q q' : R) (om om' : T1) (p p' : T2) (m m' : T3) (beta beta' : R) : hom lam (1) q q' -> hom lam (1) om om' -> hom lam (1) p p' -> hom lam (1) m m' -> hom lam (-1) beta beta' -> hom lam (-1) (d_i_m_m_l_i_same_mass q om p m beta) (d_i_m_m_l_i_same_mass q' om' p' m' beta').
Proof. intros. unfold d_i_m_m_l_i_same_mass; cbv zeta. hm. Qed.
Ltac hf_d_i_m_m_l_i_same_mass := lazymatch goal with |- hom _ _ (d_i_m_m_l_i_same_mass _ _ _ _ _) _ => eapply hom_k; [eapply d_i_m_m_l_i_same_mass_hom; hm|reflexivity] | _ => hf_d_i_m_m_l_i end.
Ltac hm_fun ::= hf_d_i_m_m_l_i_same_mass.
Lemma d_i_m_0_l_i_hom {T1 : Type} {NT1 : Num T1} {HT1 : HomNum lam T1} {T2 : Type} {NT2 : Num T2} {HT2 : HomNum lam T2} {T3 : Type} {NT3 : Num T3} {HT3 : HomNum lam T3} (q q' : R) (om om' : T1) (p p' : T2) (m m' : T3) (beta beta' : R) : hom lam (1) q q' -> hom lam (1) om om' -> hom lam (1) p p' -> hom lam (1) m m' -> hom lam (-1) beta beta' -> hom lam (-1) (d_i_m_0_l_i q om p m beta) (d_i_m_0_l_i q' om' p' m' beta').
Proof. intros. unfold d_i_m_0_l_i; cbv zeta. hm. Qed.
Ltac hf_d_i_m_0_l_i := lazymatch goal with |- hom _ _ (d_i_m_0_l_i _ _ _ _ _) _ => eapply hom_k; [eapply d_i_m_0_l_i_hom; hm|reflexivity] | _ => hf_d_i_m_m_l_i_same_mass end.
Ltac hm_fun ::= hf_d_i_m_0_l_i.
Lemma d_i_0_0_l_i_hom {T : Type} {NT : Num T} {HT : HomNum lam T} (q q' : R) (om om' : T) (p p' : R) (beta beta' : R) : hom lam (1) q q' -> hom lam (1) om om' -> hom lam (1) p p' -> hom lam (-1) beta beta' -> hom lam (-1) (d_i_0_0_l_i q om p beta) (d_i_0_0_l_i q' om' p' beta').
Proof. intros. unfold d_i_0_0_l_i; cbv zeta. hm. Qed.
Ltac hf_d_i_0_0_l_i := lazymatch goal with |- hom _ _ (d_i_0_0_l_i _ _ _ _) _ => eapply hom_k; [eapply d_i_0_0_l_i_hom; hm|reflexivity] | _ => hf_d_i_m_0_l_i end.
Ltac hm_fun ::= hf_d_i_0_0_l_i.
Lemma d_i_m_m_t_i_hom {T1 : Type} {NT1 : Num T1} {HT1 : HomNum lam T1} {T2 : Type} {NT2 : Num T2} {HT2 : HomNum lam T2} {T3 : Type} {NT3 : Num T3} {HT3 : HomNum lam T3} (q q' : R) (om om' : T1) (p p' : R) (m1 m1' : T2) (m2 m2' : T3) (beta beta' : R) : hom lam (1) q q' -> hom lam (1) om om' -> hom lam (1) p p' -> hom lam (1) m1 m1' -> hom lam (1) m2 m2' -> hom lam (-1) beta beta' -> hom lam (-1) (d_i_m_m_t_i q om p m1 m2 beta) (d_i_m_m_t_i q' om' p' m1' m2' beta').
Proof. intros. unfold d_i_m_m_t_i; cbv zeta. hm. Qed.
Ltac hf_d_i_m_m_t_i := lazymatch goal with |- hom _ _ (d_i_m_m_t_i _ _ _ _ _ _) _ => eapply hom_k; [eapply d_i_m_m_t_i_hom; hm|reflexivity] | _ => hf_d_i_0_0_l_i end.
Ltac hm_fun ::= hf_d_i_m_m_t_i.
Lemma d_i_m_m_t_i_same_mass_hom {T1 : Type} {NT1 : Num T1} {HT1 : HomNum lam T1} {T2 : Type} {NT2 : Num T2} {HT2 : HomNum lam T2} (q q' : R) (om om' : T1) (p p' : R) (m m' : T2) (beta beta' : R) : hom lam (1) q q' -> hom lam (1) om om' -> hom lam (1) p p' -> hom lam (1) m m' -> hom lam (-1) beta beta' -> hom lam (-1) (d_i_m_m_t_i_same_mass q om p m beta) (d_i_m_m_t_i_same_mass q' om' p' m' beta').
Proof. intros. unfold d_i_m_m_t_i_same_mass; cbv zeta. hm. Qed.
Ltac hf_d_i_m_m_t_i_same_mass := lazymatch goal with |- hom _ _ (d_i_m_m_t_i_same_mass _ _ _ _ _) _ => eapply hom_k; [eapply d_i_m_m_t_i_same_mass_hom; hm|reflexivity] | _ => hf_d_i_m_m_t_i end.
Ltac hm_fun ::= hf_d_i_m_m_t_i_same_mass.
Lemma d_i_m_0_t_i_hom {T1 : Type} {NT1 : Num T1} {HT1 : HomNum lam T1} {T2 : Type} {NT2 : Num T2} {HT2 : HomNum lam T2} (q q' : R) (om om' : T1) (p p' : R) (m m' : T2) (beta beta' : R) : hom lam (1) q q' -> hom lam (1) om om' -> hom lam (1) p p' -> hom lam (1) m m' -> hom lam (-1) beta beta' -> hom lam (-1) (d_i_m_0_t_i q om p m beta) (d_i_m_0_t_i q' om' p' m' beta').
Proof. intros. unfold d_i_m_0_t_i; cbv zeta. hm. Qed.
Ltac hf_d_i_m_0_t_i := lazymatch goal with |- hom _ _ (d_i_m_0_t_i _ _ _ _ _) _ => eapply hom_k; [eapply d_i_m_0_t_i_hom; hm|reflexivity] | _ => hf_d_i_m_m_t_i_same_mass end.
Ltac hm_fun ::= hf_d_i_m_0_t_i.
Lemma d_i_0_0_t_i_hom {T : Type} {NT : Num T} {HT : HomNum lam T} (q q' : R) (om om' : T) (p p' : R) (beta beta' : R) : hom lam (1) q q' -> hom lam (1) om om' -> hom lam (1) p p' -> hom lam (-1) beta beta' -> hom lam (-1) (d_i_0_0_t_i q om p beta) (d_i_0_0_t_i q' om' p' beta').
Proof. intros. unfold d_i_0_0_t_i; cbv zeta. hm. Qed.
Ltac hf_d_i_0_0_t_i := lazymatch goal with |- hom _ _ (d_i_0_0_t_i _ _ _ _) _ => eapply hom_k; [eapply d_i_0_0_t_i_hom; hm|reflexivity] | _ => hf_d_i_m_0_t_i end.
Ltac hm_fun ::= hf_d_i_0_0_t_i.
Lemma zm_r_0_hom {T : Type} {NT : Num T} {HT : HomNum lam T} (p p' : R) (delta delta' : T) : hom lam (1) p p' -> hom lam (2) delta delta' -> hom lam (2) (zm_r_0 p delta) (zm_r_0 p' delta').
Proof. intros. unfold zm_r_0; cbv zeta. hm. Qed.
Ltac hf_zm_r_0 := lazymatch goal with |- hom _ _ (zm_r_0 _ _) _ => eapply hom_k; [eapply zm_r_0_hom; hm|reflexivity] | _ => hf_d_i_0_0_t_i end.
Ltac hm_fun ::= hf_zm_r_0.
Lemma zm_tlog_hom {T : Type} {NT : Num T} {HT : HomNum lam T} (q q' : R) (p p' : R) (delta delta' : T) : hom lam (1) q q' -> hom lam (1) p p' -> hom lam (2) delta delta' -> hom lam (0) (zm_tlog q p delta) (zm_tlog q' p' delta').
Proof. intros. unfold zm_tlog; cbv zeta. hm. Qed.
Ltac hf_zm_tlog := lazymatch goal with |- hom _ _ (zm_tlog _ _ _) _ => eapply hom_k; [eapply zm_tlog_hom; hm|reflexivity] | _ => hf_zm_r_0 end.
Ltac hm_fun ::= hf_zm_tlog.
Lemma zm_tlog_same_mass_hom  (q q' : R) (p p' : R) : hom lam (1) q q' -> hom lam (1) p p' -> hom lam (0) (zm_tlog_same_mass q p) (zm_tlog_same_mass q' p').
Proof. intros. unfold zm_tlog_same_mass; cbv zeta. hm. Qed.
Ltac hf_zm_tlog_same_mass := lazymatch goal with |- hom _ _ (zm_tlog_same_mass _ _) _ => eapply hom_k; [eapply zm_tlog_same_mass_hom; hm|reflexivity] | _ => hf_zm_tlog end.
Ltac hm_fun ::= hf_zm_tlog_same_mass.
Lemma zm_tlog_zero_mass_hom  (q q' : R) (p p' : R) : hom lam (1) q q' -> hom lam (1) p p' -> hom lam (0) (zm_tlog_zero_mass q p) (zm_tlog_zero_mass q' p').
Proof. intros. unfold zm_tlog_zero_mass; cbv zeta. hm. Qed.
Ltac hf_zm_tlog_zero_mass := lazymatch goal with |- hom _ _ (zm_tlog_zero_mass _ _) _ => eapply hom_k; [eapply zm_tlog_zero_mass_hom; hm|reflexivity] | _ => hf_zm_tlog_same_mass end.
Ltac hm_fun ::= hf_zm_tlog_zero_mass.
Lemma zm_tlog_t_hom {T : Type} {NT : Num T} {HT : HomNum lam T} (q q' : R) (p p' : R) (delta delta' : T) : hom lam (1) q q' -> hom lam (1) p p' -> hom lam (2) delta delta' -> hom lam (4) (zm_tlog_t q p delta) (zm_tlog_t q' p' delta').
Proof. intros. unfold zm_tlog_t; cbv zeta. hm. Qed.
Ltac hf_zm_tlog_t := lazymatch goal with |- hom _ _ (zm_tlog_t _ _ _) _ => eapply hom_k; [eapply zm_tlog_t_hom; hm|reflexivity] | _ => hf_zm_tlog_zero_mass end.
Ltac hm_fun ::= hf_zm_tlog_t.
Lemma zm_tlog_t_same_mass_hom  (q q' : R) (p p' : R) : hom lam (1) q q' -> hom lam (1) p p' -> hom lam (4) (zm_tlog_t_same_mass q p) (zm_tlog_t_same_mass q' p').
Proof. intros. unfold zm_tlog_t_same_mass; cbv zeta. hm. Qed.
Ltac hf_zm_tlog_t_same_mass := lazymatch goal with |- hom _ _ (zm_tlog_t_same_mass _ _) _ => eapply hom_k; [eapply zm_tlog_t_same_mass_hom; hm|reflexivity] | _ => hf_zm_tlog_t end.
Ltac hm_fun ::= hf_zm_tlog_t_same_mass.
Lemma zm_tlog_t_zero_mass_hom  (q q' : R) (p p' : R) : hom lam (1) q q' -> hom lam (1) p p' -> hom lam (4) (zm_tlog_t_zero_mass q p) (zm_tlog_t_zero_mass q' p').
Proof. intros. unfold zm_tlog_t_zero_mass; cbv zeta. hm. Qed.
Ltac hf_zm_tlog_t_zero_mass := lazymatch goal with |- hom _ _ (zm_tlog_t_zero_mass _ _) _ => eapply hom_k; [eapply zm_tlog_t_zero_mass_hom; hm|reflexivity] | _ => hf_zm_tlog_t_same_mass end.
Ltac hm_fun ::= hf_zm_tlog_t_zero_mass.
Lemma zm_i_m_m_i_hom {T1 : Type} {NT1 : Num T1} {HT1 : HomNum lam T1} {T2 : Type} {NT2 : Num T2} {HT2 : HomNum lam T2} (q q' : R) (p p' : R) (m1 m1' : T1) (m2 m2' : T2) (beta beta' : R) : hom lam (1) q q' -> hom lam (1) p p' -> hom lam (1) m1 m1' -> hom lam (1) m2 m2' -> hom lam (-1) beta beta' -> hom lam (-1) (zm_i_m_m_i q p m1 m2 beta) (zm_i_m_m_i q' p' m1' m2' beta').
Proof. intros. unfold zm_i_m_m_i; cbv zeta. hm. Qed.
Ltac hf_zm_i_m_m_i := lazymatch goal with |- hom _ _ (zm_i_m_m_i _ _ _ _ _) _ => eapply hom_k; [eapply zm_i_m_m_i_hom; hm|reflexivity] | _ => hf_zm_tlog_t_zero_mass end.
Ltac hm_fun ::= hf_zm_i_m_m_i.
Lemma zm_i_m_m_i_same_mass_hom {T : Type} {NT : Num T} {HT : HomNum lam T} (q q' : R) (p p' : R) (m m' : T) (beta beta' : R) : hom lam (1) q q' -> hom lam (1) p p' -> hom lam (1) m m' -> hom lam (-1) beta beta' -> hom lam (-1) (zm_i_m_m_i_same_mass q p m beta) (zm_i_m_m_i_same_mass q' p' m' beta').
Proof. intros. unfold zm_i_m_m_i_same_mass; cbv zeta. hm. Qed.
Ltac hf_zm_i_m_m_i_same_mass := lazymatch goal with |- hom _ _ (zm_i_m_m_i_same_mass _ _ _ _) _ => eapply hom_k; [eapply zm_i_m_m_i_same_mass_hom; hm|reflexivity] | _ => hf_zm_i_m_m_i end.
Ltac hm_fun ::= hf_zm_i_m_m_i_same_mass.
Lemma zm_i_m_0_i_hom {T : Type} {NT : Num T} {HT : HomNum lam T} (q q' : R) (p p' : R) (m m' : T) (beta beta' : R) : hom lam (1) q q' -> hom lam (1) p p' -> hom lam (1) m m' -> hom lam (-1) beta beta' -> hom lam (-1) (zm_i_m_0_i q p m beta) (zm_i_m_0_i q' p' m' beta').
Proof. intros. unfold zm_i_m_0_i; cbv zeta. hm. Qed.
Ltac hf_zm_i_m_0_i := lazymatch goal with |- hom _ _ (zm_i_m_0_i _ _ _ _) _ => eapply hom_k; [eapply zm_i_m_0_i_hom; hm|reflexivity] | _ => hf_zm_i_m_m_i_same_mass end.
Ltac hm_fun ::= hf_zm_i_m_0_i.
Lemma zm_i_0_0_i_hom  (q q' : R) (p p' : R) (beta beta' : R) : hom lam (1) q q' -> hom lam (1) p p' -> hom lam (-1) beta beta' -> hom lam (-1) (zm_i_0_0_i q p beta) (zm_i_0_0_i q' p' beta').
Proof. intros. unfold zm_i_0_0_i; cbv zeta. hm. Qed.
Ltac hf_zm_i_0_0_i := lazymatch goal with |- hom _ _ (zm_i_0_0_i _ _ _) _ => eapply hom_k; [eapply zm_i_0_0_i_hom; hm|reflexivity] | _ => hf_zm_i_m_0_i end.
Ltac hm_fun ::= hf_zm_i_0_0_i.
Lemma zm_i_m_m_l_i_hom {T1 : Type} {NT1 : Num T1} {HT1 : HomNum lam T1} {T2 : Type} {NT2 : Num T2} {HT2 : HomNum lam T2} (q q' : R) (p p' : R) (m1 m1' : T1) (m2 m2' : T2) (beta beta' : R) : hom lam (1) q q' -> hom lam (1) p p' -> hom lam (1) m1 m1' -> hom lam (1) m2 m2' -> hom lam (-1) beta beta' -> hom lam (1) (zm_i_m_m_l_i q p m1 m2 beta) (zm_i_m_m_l_i q' p' m1' m2' beta').
Proof. intros. unfold zm_i_m_m_l_i; cbv zeta. hm. Qed.
Ltac hf_zm_i_m_m_l_i := lazymatch goal with |- hom _ _ (zm_i_m_m_l_i _ _ _ _ _) _ => eapply hom_k; [eapply zm_i_m_m_l_i_hom; hm|reflexivity] | _ => hf_zm_i_0_0_i end.
Ltac hm_fun ::= hf_zm_i_m_m_l_i.
Lemma zm_i_m_m_l_i_same_mass_hom {T : Type} {NT : Num T} {HT : HomNum lam T} (q q' : R) (p p' : R) (m m' : T) (beta beta' : R) : hom lam (1) q q' -> hom lam (1) p p' -> hom lam (1) m m' -> hom lam (-1) beta beta' -> hom lam (1) (zm_i_m_m_l_i_same_mass q p m beta) (zm_i_m_m_l_i_same_mass q' p' m' beta').
Proof. intros. unfold zm_i_m_m_l_i_same_mass; cbv zeta. hm. Qed.
Ltac hf_zm_i_m_m_l_i_same_mass := lazymatch goal with |- hom _ _ (zm_i_m_m_l_i_same_mass _ _ _ _) _ => eapply hom_k; [eapply zm_i_m_m_l_i_same_mass_hom; hm|reflexivity] | _ => hf_zm_i_m_m_l_i end.
Ltac hm_fun ::= hf_zm_i_m_m_l_i_same_mass.
Lemma zm_i_m_0_l_i_hom {T : Type} {NT : Num T} {HT : HomNum lam T} (q q' : R) (p p' : R) (m m' : T) (beta beta' : R) : hom lam (1) q q' -> hom lam (1) p p' -> hom lam (1) m m' -> hom lam (-1) beta beta' -> hom lam (1) (zm_i_m_0_l_i q p m beta) (zm_i_m_0_l_i q' p' m' beta').
Proof. intros. unfold zm_i_m_0_l_i; cbv zeta. hm. Qed.
Ltac hf_zm_i_m_0_l_i := lazymatch goal with |- hom _ _ (zm_i_m_0_l_i _ _ _ _) _ => eapply hom_k; [eapply zm_i_m_0_l_i_hom; hm|reflexivity] | _ => hf_zm_i_m_m_l_i_same_mass end.
Ltac hm_fun ::= hf_zm_i_m_0_l_i.
Lemma zm_i_0_0_l_i_hom  (q q' : R) (p p' : R) (beta beta' : R) : hom lam (1) q q' -> hom lam (1) p p' -> hom lam (-1) beta beta' -> hom lam (1) (zm_i_0_0_l_i q p beta) (zm_i_0_0_l_i q' p' beta').
Proof. intros. unfold zm_i_0_0_l_i; cbv zeta. hm. Qed.
Ltac hf_zm_i_0_0_l_i := lazymatch goal with |- hom _ _ (zm_i_0_0_l_i _ _ _) _ => eapply hom_k; [eapply zm_i_0_0_l_i_hom; hm|reflexivity] | _ => hf_zm_i_m_0_l_i end.
Ltac hm_fun ::= hf_zm_i_0_0_l_i.
Lemma zm_i_m_m_t_i_hom {T1 : Type} {NT1 : Num T1} {HT1 : HomNum lam T1} {T2 : Type} {NT2 : Num T2} {HT2 : HomNum lam T2} (q q' : R) (p p' : R) (m1 m1' : T1) (m2 m2' : T2) (beta beta' : R) : hom lam (1) q q' -> hom lam (1) p p' -> hom lam (1) m1 m1' -> hom lam (1) m2 m2' -> hom lam (-1) beta beta' -> hom lam (1) (zm_i_m_m_t_i q p m1 m2 beta) (zm_i_m_m_t_i q' p' m1' m2' beta').
Proof. intros. unfold zm_i_m_m_t_i; cbv zeta. hm. Qed.
Ltac hf_zm_i_m_m_t_i := lazymatch goal with |- hom _ _ (zm_i_m_m_t_i _ _ _ _ _) _ => eapply hom_k; [eapply zm_i_m_m_t_i_hom; hm|reflexivity] | _ => hf_zm_i_0_0_l_i end.
Ltac hm_fun ::= hf_zm_i_m_m_t_i.
Lemma zm_i_m_m_t_i_same_mass_hom {T : Type} {NT : Num T} {HT : HomNum lam T} (q q' : R) (p p' : R) (m m' : T) (beta beta' : R) : hom lam (1) q q' -> hom lam (1) p p' -> hom lam (1) m m' -> hom lam (-1) beta beta' -> hom lam (1) (zm_i_m_m_t_i_same_mass q p m beta) (zm_i_m_m_t_i_same_mass q' p' m' beta').
Proof. intros. unfold zm_i_m_m_t_i_same_mass; cbv zeta. hm. Qed.
Ltac hf_zm_i_m_m_t_i_same_mass := lazymatch goal with |- hom _ _ (zm_i_m_m_t_i_same_mass _ _ _ _) _ => eapply hom_k; [eapply zm_i_m_m_t_i_same_mass_hom; hm|reflexivity] | _ => hf_zm_i_m_m_t_i end.
Ltac hm_fun ::= hf_zm_i_m_m_t_i_same_mass.
Lemma zm_i_m_0_t_i_hom {T : Type} {NT : Num T} {HT : HomNum lam T} (q q' : R) (p p' : R) (m m' : T) (beta beta' : R) : hom lam (1) q q' -> hom lam (1) p p' -> hom lam (1) m m' -> hom lam (-1) beta beta' -> hom lam (1) (zm_i_m_0_t_i q p m beta) (zm_i_m_0_t_i q' p' m' beta').
Proof. intros. unfold zm_i_m_0_t_i; cbv zeta. hm. Qed.
Ltac hf_zm_i_m_0_t_i := lazymatch goal with |- hom _ _ (zm_i_m_0_t_i _ _ _ _) _ => eapply hom_k; [eapply zm_i_m_0_t_i_hom; hm|reflexivity] | _ => hf_zm_i_m_m_t_i_same_mass end.
Ltac hm_fun ::= hf_zm_i_m_0_t_i.
Lemma zm_i_0_0_t_i_hom  (q q' : R) (p p' : R) (beta beta' : R) : hom lam (1) q q' -> hom lam (1) p p' -> hom lam (-1) beta beta' -> hom lam (1) (zm_i_0_0_t_i q p beta) (zm_i_0_0_t_i q' p' beta').
Proof. intros. unfold zm_i_0_0_t_i; cbv zeta. hm. Qed.
Ltac hf_zm_i_0_0_t_i := lazymatch goal with |- hom _ _ (zm_i_0_0_t_i _ _ _) _ => eapply hom_k; [eapply zm_i_0_0_t_i_hom; hm|reflexivity] | _ => hf_zm_i_m_0_t_i end.
Ltac hm_fun ::= hf_zm_i_0_0_t_i.
Lemma zm_d_i_m_m_i_hom {T1 : Type} {NT1 : Num T1} {HT1 : HomNum lam T1} {T2 : Type} {NT2 : Num T2} {HT2 : HomNum lam T2} (q q' : R) (p p' : R) (m1 m1' : T1) (m2 m2' : T2) (beta beta' : R) : hom lam (1) q q' -> hom lam (1) p p' -> hom lam (1) m1 m1' -> hom lam (1) m2 m2' -> hom lam (-1) beta beta' -> hom lam (-3) (zm_d_i_m_m_i q p m1 m2 beta) (zm_d_i_m_m_i q' p' m1' m2' beta').
Proof. intros. unfold zm_d_i_m_m_i; cbv zeta. hm. Qed.
Ltac hf_zm_d_i_m_m_i := lazymatch goal with |- hom _ _ (zm_d_i_m_m_i _ _ _ _ _) _ => eapply hom_k; [eapply zm_d_i_m_m_i_hom; hm|reflexivity] | _ => hf_zm_i_0_0_t_i end.
Ltac hm_fun ::= hf_zm_d_i_m_m_i.
Lemma zm_d_i_m_m_i_same_mass_hom {T : Type} {NT : Num T} {HT : HomNum lam T} (q q' : R) (p p' : R) (m m' : T) (beta beta' : R) : hom lam (1) q q' -> hom lam (1) p p' -> hom lam (1) m m' -> hom lam (-1) beta beta' -> hom lam (-3) (zm_d_i_m_m_i_same_mass q p m beta) (zm_d_i_m_m_i_same_mass q' p' m' beta').
Proof. intros. unfold zm_d_i_m_m_i_same_mass; cbv zeta. hm. Qed.
Ltac hf_zm_d_i_m_m_i_same_mass := lazymatch goal with |- hom _ _ (zm_d_i_m_m_i_same_mass _ _ _ _) _ => eapply hom_k; [eapply zm_d_i_m_m_i_same_mass_hom; hm|reflexivity] | _ => hf_zm_d_i_m_m_i end.
Ltac hm_fun ::= hf_zm_d_i_m_m_i_same_mass.
Lemma zm_d_i_m_0_i_hom {T : Type} {NT : Num T} {HT : HomNum lam T} (q q' : R) (p p' : R) (m m' : T) (beta beta' : R) : hom lam (1) q q' -> hom lam (1) p p' -> hom lam (1) m m' -> hom lam (-1) beta beta' -> hom lam (-3) (zm_d_i_m_0_i q p m beta) (zm_d_i_m_0_i q' p' m' beta').
Proof. intros. unfold zm_d_i_m_0_i; cbv zeta. hm. Qed.
Ltac hf_zm_d_i_m_0_i := lazymatch goal with |- hom _ _ (zm_d_i_m_0_i _ _ _ _) _ => eapply hom_k; [eapply zm_d_i_m_0_i_hom; hm|reflexivity] | _ => hf_zm_d_i_m_m_i_same_mass end.
Ltac hm_fun ::= hf_zm_d_i_m_0_i.
Lemma zm_d_i_0_0_i_hom  (q q' : R) (p p' : R) (beta beta' : R) : hom lam (1) q q' -> hom lam (1) p p' -> hom lam (-1) beta beta' -> hom lam (-3) (zm_d_i_0_0_i q p beta) (zm_d_i_0_0_i q' p' beta').
Proof. intros. unfold zm_d_i_0_0_i; cbv zeta. hm. Qed.
Ltac hf_zm_d_i_0_0_i := lazymatch goal with |- hom _ _ (zm_d_i_0_0_i _ _ _) _ => eapply hom_k; [eapply zm_d_i_0_0_i_hom; hm|reflexivity] | _ => hf_zm_d_i_m_0_i end.
Ltac hm_fun ::= hf_zm_d_i_0_0_i.
Lemma zm_d_i_m_m_l_i_hom {T1 : Type} {NT1 : Num T1} {HT1 : HomNum lam T1} {T2 : Type} {NT2 : Num T2} {HT2 : HomNum lam T2} (q q' : R) (p p' : R) (m1 m1' : T1) (m2 m2' : T2) (beta beta' : R) : hom lam (1) q q' -> hom lam (1) p p' -> hom lam (1) m1 m1' -> hom lam (1) m2 m2' -> hom lam (-1) beta beta' -> hom lam (-1) (zm_d_i_m_m_l_i q p m1 m2 beta) (zm_d_i_m_m_l_i q' p' m1' m2' beta').
Proof. intros. unfold zm_d_i_m_m_l_i; cbv zeta. hm. Qed.
Ltac hf_zm_d_i_m_m_l_i := lazymatch goal with |- hom _ _ (zm_d_i_m_m_l_i _ _ _ _ _) _ => eapply hom_k; [eapply zm_d_i_m_m_l_i_hom; hm|reflexivity] | _ => hf_zm_d_i_0_0_i end.
Ltac hm_fun ::= hf_zm_d_i_m_m_l_i.
Lemma zm_d_i_m_m_l_i_same_mass_hom {T : Type} {NT : Num T} {HT : HomNum lam T} (q q' : R) (p p' : R) (m m' : T) (beta beta' : R) : hom lam (1) q q' -> hom lam (1) p p' -> hom lam (1) m m' -> hom lam (-1) beta beta' -> hom lam (-1) (zm_d_i_m_m_l_i_same_mass q p m beta) (zm_d_i_m_m_l_i_same_mass q' p' m' beta').
Proof. intros. unfold zm_d_i_m_m_l_i_same_mass; cbv zeta. hm. Qed.
Ltac hf_zm_d_i_m_m_l_i_same_mass := lazymatch goal with |- hom _ _ (zm_d_i_m_m_l_i_same_mass _ _ _ _) _ => eapply hom_k; [eapply zm_d_i_m_m_l_i_same_mass_hom; hm|reflexivity] | _ => hf_zm_d_i_m_m_l_i end.
Ltac hm_fun ::= hf_zm_d_i_m_m_l_i_same_mass.
Lemma zm_d_i_m_0_l_i_hom {T : Type} {NT : Num T} {HT : HomNum lam T} (q q' : R) (p p' : R) (m m' : T) (beta beta' : R) : hom lam (1) q q' -> hom lam (1) p p' -> hom lam (1) m m' -> hom lam (-1) beta beta' -> hom lam (-1) (zm_d_i_m_0_l_i q p m beta) (zm_d_i_m_0_l_i q' p' m' beta').
Proof. intros. unfold zm_d_i_m_0_l_i; cbv zeta. hm. Qed.
Ltac hf_zm_d_i_m_0_l_i := lazymatch goal with |- hom _ _ (zm_d_i_m_0_l_i _ _ _ _) _ => eapply hom_k; [eapply zm_d_i_m_0_l_i_hom; hm|reflexivity] | _ => hf_zm_d_i_m_m_l_i_same_mass end.
Ltac hm_fun ::= hf_zm_d_i_m_0_l_i.
Lemma zm_d_i_0_0_l_i_hom  (q q' : R) (p p' : R) (beta beta' : R) : hom lam (1) q q' -> hom lam (1) p p' -> hom lam (-1) beta beta' -> hom lam (-1) (zm_d_i_0_0_l_i q p beta) (zm_d_i_0_0_l_i q' p' beta').
Proof. intros. unfold zm_d_i_0_0_l_i; cbv zeta. hm. Qed.
Ltac hf_zm_d_i_0_0_l_i := lazymatch goal with |- hom _ _ (zm_d_i_0_0_l_i _ _ _) _ => eapply hom_k; [eapply zm_d_i_0_0_l_i_hom; hm|reflexivity] | _ => hf_zm_d_i_m_0_l_i end.
Ltac hm_fun ::= hf_zm_d_i_0_0_l_i.
Lemma zm_d_i_m_m_t_i_hom {T1 : Type} {NT1 : Num T1} {HT1 : HomNum lam T1} {T2 : Type} {NT2 : Num T2} {HT2 : HomNum lam T2} (q q' : R) (p p' : R) (m1 m1' : T1) (m2 m2' : T2) (beta beta' : R) : hom lam (1) q q' -> hom lam (1) p p' -> hom lam (1) m1 m1' -> hom lam (1) m2 m2' -> hom lam (-1) beta beta' -> hom lam (-1) (zm_d_i_m_m_t_i q p m1 m2 beta) (zm_d_i_m_m_t_i q' p' m1' m2' beta').
Proof. intros. unfold zm_d_i_m_m_t_i; cbv zeta. hm. Qed.
Ltac hf_zm_d_i_m_m_t_i := lazymatch goal with |- hom _ _ (zm_d_i_m_m_t_i _ _ _ _ _) _ => eapply hom_k; [eapply zm_d_i_m_m_t_i_hom; hm|reflexivity] | _ => hf_zm_d_i_0_0_l_i end.
Ltac hm_fun ::= hf_zm_d_i_m_m_t_i.
Lemma zm_d_i_m_m_t_i_same_mass_hom {T : Type} {NT : Num T} {HT : HomNum lam T} (q q' : R) (p p' : R) (m m' : T) (beta beta' : R) : hom lam (1) q q' -> hom lam (1) p p' -> hom lam (1) m m' -> hom lam (-1) beta beta' -> hom lam (-1) (zm_d_i_m_m_t_i_same_mass q p m beta) (zm_d_i_m_m_t_i_same_mass q' p' m' beta').
Proof. intros. unfold zm_d_i_m_m_t_i_same_mass; cbv zeta. hm. Qed.
Ltac hf_zm_d_i_m_m_t_i_same_mass := lazymatch goal with |- hom _ _ (zm_d_i_m_m_t_i_same_mass _ _ _ _) _ => eapply hom_k; [eapply zm_d_i_m_m_t_i_same_mass_hom; hm|reflexivity] | _ => hf_zm_d_i_m_m_t_i end.
Ltac hm_fun ::= hf_zm_d_i_m_m_t_i_same_mass.
Lemma zm_d_i_m_0_t_i_hom {T : Type} {NT : Num T} {HT : HomNum lam T} (q q' : R) (p p' : R) (m m' : T) (beta beta' : R) : hom lam (1) q q' -> hom lam (1) p p' -> hom lam (1) m m' -> hom lam (-1) beta beta' -> hom lam (-1) (zm_d_i_m_0_t_i q p m beta) (zm_d_i_m_0_t_i q' p' m' beta').
Proof. intros. unfold zm_d_i_m_0_t_i; cbv zeta. hm. Qed.
Ltac hf_zm_d_i_m_0_t_i := lazymatch goal with |- hom _ _ (zm_d_i_m_0_t_i _ _ _ _) _ => eapply hom_k; [eapply zm_d_i_m_0_t_i_hom; hm|reflexivity] | _ => hf_zm_d_i_m_m_t_i_same_mass end.
Ltac hm_fun ::= hf_zm_d_i_m_0_t_i.
Lemma zm_d_i_0_0_t_i_hom  (q q' : R) (p p' : R) (beta beta' : R) : hom lam (1) q q' -> hom lam (1) p p' -> hom lam (-1) beta beta' -> hom lam (-1) (zm_d_i_0_0_t_i q p beta) (zm_d_i_0_0_t_i q' p' beta').
Proof. intros. unfold zm_d_i_0_0_t_i; cbv zeta. hm. Qed.
Ltac hf_zm_d_i_0_0_t_i := lazymatch goal with |- hom _ _ (zm_d_i_0_0_t_i _ _ _) _ => eapply hom_k; [eapply zm_d_i_0_0_t_i_hom; hm|reflexivity] | _ => hf_zm_d_i_m_0_t_i end.
Ltac hm_fun ::= hf_zm_d_i_0_0_t_i.
Lemma zp_r_0_hom {T1 : Type} {NT1 : Num T1} {HT1 : HomNum lam T1} {T2 : Type} {NT2 : Num T2} {HT2 : HomNum lam T2} {T3 : Type} {NT3 : Num T3} {HT3 : HomNum lam T3} (om om' : T1) (en en' : T2) (delta delta' : T3) : hom lam (1) om om' -> hom lam (1) en en' -> hom lam (2) delta delta' -> hom lam (2) (zp_r_0 om en delta) (zp_r_0 om' en' delta').
Proof. intros. unfold zp_r_0; cbv zeta. hm. Qed.
Ltac hf_zp_r_0 := lazymatch goal with |- hom _ _ (zp_r_0 _ _ _) _ => eapply hom_k; [eapply zp_r_0_hom; hm|reflexivity] | _ => hf_zm_d_i_0_0_t_i end.
Ltac hm_fun ::= hf_zp_r_0.
Lemma zp_r_0_same_mass_hom {T1 : Type} {NT1 : Num T1} {HT1 : HomNum lam T1} {T2 : Type} {NT2 : Num T2} {HT2 : HomNum lam T2} (om om' : T1) (en en' : T2) : hom lam (1) om om' -> hom lam (1) en en' -> hom lam (2) (zp_r_0_same_mass om en) (zp_r_0_same_mass om' en').
Proof. intros. unfold zp_r_0_same_mass; cbv zeta. hm. Qed.
Ltac hf_zp_r_0_same_mass := lazymatch goal with |- hom _ _ (zp_r_0_same_mass _ _) _ => eapply hom_k; [eapply zp_r_0_same_mass_hom; hm|reflexivity] | _ => hf_zp_r_0 end.
Ltac hm_fun ::= hf_zp_r_0_same_mass.
Lemma zp_i_m_m_i_hom {T1 : Type} {NT1 : Num T1} {HT1 : HomNum lam T1} {T2 : Type} {NT2 : Num T2} {HT2 : HomNum lam T2} {T3 : Type} {NT3 : Num T3} {HT3 : HomNum lam T3} (q q' : R) (om om' : T1) (m1 m1' : T2) (m2 m2' : T3) (beta beta' : R) : hom lam (1) q q' -> hom lam (1) om om' -> hom lam (1) m1 m1' -> hom lam (1) m2 m2' -> hom lam (-1) beta beta' -> hom lam (-1) (zp_i_m_m_i q om m1 m2 beta) (zp_i_m_m_i q' om' m1' m2' beta').
Proof. intros. unfold zp_i_m_m_i; cbv zeta. hm. Qed.
Ltac hf_zp_i_m_m_i := lazymatch goal with |- hom _ _ (zp_i_m_m_i _ _ _ _ _) _ => eapply hom_k; [eapply zp_i_m_m_i_hom; hm|reflexivity] | _ => hf_zp_r_0_same_mass end.
Ltac hm_fun ::= hf_zp_i_m_m_i.
Lemma zp_i_m_m_i_same_mass_hom {T1 : Type} {NT1 : Num T1} {HT1 : HomNum lam T1} {T2 : Type} {NT2 : Num T2} {HT2 : HomNum lam T2} (q q' : R) (om om' : T1) (m m' : T2) (beta beta' : R) : hom lam (1) q q' -> hom lam (1) om om' -> hom lam (1) m m' -> hom lam (-1) beta beta' -> hom lam (-1) (zp_i_m_m_i_same_mass q om m beta) (zp_i_m_m_i_same_mass q' om' m' beta').
Proof. intros. unfold zp_i_m_m_i_same_mass; cbv zeta. hm. Qed.
Ltac hf_zp_i_m_m_i_same_mass := lazymatch goal with |- hom _ _ (zp_i_m_m_i_same_mass _ _ _ _) _ => eapply hom_k; [eapply zp_i_m_m_i_same_mass_hom; hm|reflexivity] | _ => hf_zp_i_m_m_i end.
Ltac hm_fun ::= hf_zp_i_m_m_i_same_mass.
Lemma zp_i_m_0_i_hom {T1 : Type} {NT1 : Num T1} {HT1 : HomNum lam T1} {T2 : Type} {NT2 : Num T2} {HT2 : HomNum lam T2} (q q' : R) (om om' : T1) (m m' : T2) (beta beta' : R) : hom lam (1) q q' -> hom lam (1) om om' -> hom lam (1) m m' -> hom lam (-1) beta beta' -> hom lam (-1) (zp_i_m_0_i q om m beta) (zp_i_m_0_i q' om' m' beta').
Proof. intros. unfold zp_i_m_0_i; cbv zeta. hm. Qed.
Ltac hf_zp_i_m_0_i := lazymatch goal with |- hom _ _ (zp_i_m_0_i _ _ _ _) _ => eapply hom_k; [eapply zp_i_m_0_i_hom; hm|reflexivity] | _ => hf_zp_i_m_m_i_same_mass end.
Ltac hm_fun ::= hf_zp_i_m_0_i.
Lemma zp_i_0_0_i_hom {T : Type} {NT : Num T} {HT : HomNum lam T} (q q' : R) (om om' : T) (beta beta' : R) : hom lam (1) q q' -> hom lam (1) om om' -> hom lam (-1) beta beta' -> hom lam (-1) (zp_i_0_0_i q om beta) (zp_i_0_0_i q' om' beta').
Proof. intros. unfold zp_i_0_0_i; cbv zeta. hm. Qed.
Ltac hf_zp_i_0_0_i := lazymatch goal with |- hom _ _ (zp_i_0_0_i _ _ _) _ => eapply hom_k; [eapply zp_i_0_0_i_hom; hm|reflexivity] | _ => hf_zp_i_m_0_i end.
Ltac hm_fun ::= hf_zp_i_0_0_i.
Lemma zp_i_m_m_l_i_hom {T1 : Type} {NT1 : Num T1} {HT1 : HomNum lam T1} {T2 : Type} {NT2 : Num T2} {HT2 : HomNum lam T2} {T3 : Type} {NT3 : Num T3} {HT3 : HomNum lam T3} (q q' : R) (om om' : T1) (m1 m1' : T2) (m2 m2' : T3) (beta beta' : R) : hom lam (1) q q' -> hom lam (1) om om' -> hom lam (1) m1 m1' -> hom lam (1) m2 m2' -> hom lam (-1) beta beta' -> hom lam (1) (zp_i_m_m_l_i q om m1 m2 beta) (zp_i_m_m_l_i q' om' m1' m2' beta').
Proof. intros. unfold zp_i_m_m_l_i; cbv zeta. hm. Qed.
Ltac hf_zp_i_m_m_l_i := lazymatch goal with |- hom _ _ (zp_i_m_m_l_i _ _ _ _ _) _ => eapply hom_k; [eapply zp_i_m_m_l_i_hom; hm|reflexivity] | _ => hf_zp_i_0_0_i end.
Ltac hm_fun ::= hf_zp_i_m_m_l_i.
Lemma zp_i_m_m_l_i_same_mass_hom {T1 : Type} {NT1 : Num T1} {HT1 : HomNum lam T1} {T2 : Type} {NT2 : Num T2} {HT2 : HomNum lam T2} (q q' : R) (om om' : T1) (m m' : T2) (beta beta' : R) : hom lam (1) q q' -> hom lam (1) om om' -> hom lam (1) m m' -> hom lam (-1) beta beta' -> hom lam (1) (zp_i_m_m_l_i_same_mass q om m beta) (zp_i_m_m_l_i_same_mass q' om' m' beta').
Proof. intros. unfold zp_i_m_m_l_i_same_mass; cbv zeta. hm. Qed.
Ltac hf_zp_i_m_m_l_i_same_mass := lazymatch goal with |- hom _ _ (zp_i_m_m_l_i_same_mass _ _ _ _) _ => eapply hom_k; [eapply zp_i_m_m_l_i_same_mass_hom; hm|reflexivity] | _ => hf_zp_i_m_m_l_i end.
Ltac hm_fun ::= hf_zp_i_m_m_l_i_same_mass.
Lemma zp_i_m_0_l_i_hom {T1 : Type} {NT1 : Num T1} {HT1 : HomNum lam T1} {T2 : Type} {NT2 : Num T2} {HT2 : HomNum lam T2} (q q' : R) (om om' : T1) (m m' : T2) (beta beta' : R) : hom lam (1) q q' -> hom lam (1) om om' -> hom lam (1) m m' -> hom lam (-1) beta beta' -> hom lam (1) (zp_i_m_0_l_i q om m beta) (zp_i_m_0_l_i q' om' m' beta').
Proof. intros. unfold zp_i_m_0_l_i; cbv zeta. hm. Qed.
Ltac hf_zp_i_m_0_l_i := lazymatch goal with |- hom _ _ (zp_i_m_0_l_i _ _ _ _) _ => eapply hom_k; [eapply zp_i_m_0_l_i_hom; hm|reflexivity] | _ => hf_zp_i_m_m_l_i_same_mass end.
Ltac hm_fun ::= hf_zp_i_m_0_l_i.
Lemma zp_i_0_0_l_i_hom {T : Type} {NT : Num T} {HT : HomNum lam T} (q q' : R) (om om' : T) (beta beta' : R) : hom lam (1) q q' -> hom lam (1) om om' -> hom lam (-1) beta beta' -> hom lam (1) (zp_i_0_0_l_i q om beta) (zp_i_0_0_l_i q' om' beta').
Proof. intros. unfold zp_i_0_0_l_i; cbv zeta. hm. Qed.
Ltac hf_zp_i_0_0_l_i := lazymatch goal with |- hom _ _ (zp_i_0_0_l_i _ _ _) _ => eapply hom_k; [eapply zp_i_0_0_l_i_hom; hm|reflexivity] | _ => hf_zp_i_m_0_l_i end.
Ltac hm_fun ::= hf_zp_i_0_0_l_i.
Lemma zp_i_m_m_t_i_hom {T1 : Type} {NT1 : Num T1} {HT1 : HomNum lam T1} {T2 : Type} {NT2 : Num T2} {HT2 : HomNum lam T2} {T3 : Type} {NT3 : Num T3} {HT3 : HomNum lam T3} (q q' : R) (om om' : T1) (m1 m1' : T2) (m2 m2' : T3) (beta beta' : R) : hom lam (1) q q' -> hom lam (1) om om' -> hom lam (1) m1 m1' -> hom lam (1) m2 m2' -> hom lam (-1) beta beta' -> hom lam (1) (zp_i_m_m_t_i q om m1 m2 beta) (zp_i_m_m_t_i q' om' m1' m2' beta').
Proof. intros. unfold zp_i_m_m_t_i; cbv zeta. hm. Qed.
Ltac hf_zp_i_m_m_t_i := lazymatch goal with |- hom _ _ (zp_i_m_m_t_i _ _ _ _ _) _ => eapply hom_k; [eapply zp_i_m_m_t_i_hom; hm|reflexivity] | _ => hf_zp_i_0_0_l_i end.
Ltac hm_fun ::= hf_zp_i_m_m_t_i.
Lemma zp_i_m_m_t_i_same_mass_hom {T1 : Type} {NT1 : Num T1} {HT1 : HomNum lam T1} {T2 : Type} {NT2 : Num T2} {HT2 : HomNum lam T2} (q q' : R) (om om' : T1) (m m' : T2) (beta beta' : R) : hom lam (1) q q' -> hom lam (1) om om' -> hom lam (1) m m' -> hom lam (-1) beta beta' -> hom lam (1) (zp_i_m_m_t_i_same_mass q om m beta) (zp_i_m_m_t_i_same_mass q' om' m' beta').
Proof. intros. unfold zp_i_m_m_t_i_same_mass; cbv zeta. hm. Qed.
Ltac hf_zp_i_m_m_t_i_same_mass := lazymatch goal with |- hom _ _ (zp_i_m_m_t_i_same_mass _ _ _ _) _ => eapply hom_k; [eapply zp_i_m_m_t_i_same_mass_hom; hm|reflexivity] | _ => hf_zp_i_m_m_t_i end.
Ltac hm_fun ::= hf_zp_i_m_m_t_i_same_mass.
Lemma zp_i_m_0_t_i_hom {T1 : Type} {NT1 : Num T1} {HT1 : HomNum lam T1} {T2 : Type} {NT2 : Num T2} {HT2 : HomNum lam T2} (q q' : R) (om om' : T1) (m m' : T2) (beta beta' : R) : hom lam (1) q q' -> hom lam (1) om om' -> hom lam (1) m m' -> hom lam (-1) beta beta' -> hom lam (1) (zp_i_m_0_t_i q om m beta) (zp_i_m_0_t_i q' om' m' beta').
Proof. intros. unfold zp_i_m_0_t_i; cbv zeta. hm. Qed.
Ltac hf_zp_i_m_0_t_i := lazymatch goal with |- hom _ _ (zp_i_m_0_t_i _ _ _ _) _ => eapply hom_k; [eapply zp_i_m_0_t_i_hom; hm|reflexivity] | _ => hf_zp_i_m_m_t_i_same_mass end.
Ltac hm_fun ::= hf_zp_i_m_0_t_i.
Lemma zp_i_0_0_t_i_hom {T : Type} {NT : Num T} {HT : HomNum lam T} (q q' : R) (om om' : T) (beta beta' : R) : hom lam (1) q q' -> hom lam (1) om om' -> hom lam (-1) beta beta' -> hom lam (1) (zp_i_0_0_t_i q om beta) (zp_i_0_0_t_i q' om' beta').
Proof. intros. unfold zp_i_0_0_t_i; cbv zeta. hm. Qed.
Ltac hf_zp_i_0_0_t_i := lazymatch goal with |- hom _ _ (zp_i_0_0_t_i _ _ _) _ => eapply hom_k; [eapply zp_i_0_0_t_i_hom; hm|reflexivity] | _ => hf_zp_i_m_0_t_i end.
Ltac hm_fun ::= hf_zp_i_0_0_t_i.
Lemma zp_d_i_m_m_i_hom {T1 : Type} {NT1 : Num T1} {HT1 : HomNum lam T1} {T2 : Type} {NT2 : Num T2} {HT2 : HomNum lam T2} {T3 : Type} {NT3 : Num T3} {HT3 : HomNum lam T3} (q q' : R) (om om' : T1) (m1 m1' : T2) (m2 m2' : T3) (beta beta' : R) : hom lam (1) q q' -> hom lam (1) om om' -> hom lam (1) m1 m1' -> hom lam (1) m2 m2' -> hom lam (-1) beta beta' -> hom lam (-3) (zp_d_i_m_m_i q om m1 m2 beta) (zp_d_i_m_m_i q' om' m1' m2' beta').
Proof. intros. unfold zp_d_i_m_m_i; cbv zeta. hm. Qed.
Ltac hf_zp_d_i_m_m_i := lazymatch goal with |- hom _ _ (zp_d_i_m_m_i _ _ _ _ _) _ => eapply hom_k; [eapply zp_d_i_m_m_i_hom; hm|reflexivity] | _ => hf_zp_i_0_0_t_i end.
Ltac hm_fun ::= hf_zp_d_i_m_m_i.
Lemma zp_d_i_m_m_i_same_mass_hom {T1 : Type} {NT1 : Num T1} {HT1 : HomNum lam T1} {T2 : Type} {NT2 : Num T2} {HT2 : HomNum lam T2} (q q' : R) (om om' : T1) (m m' : T2) (beta beta' : R) : hom lam (1) q q' -> hom lam (1) om om' -> hom lam (1) m m' -> hom lam (-1) beta beta' -> hom lam (-3) (zp_d_i_m_m_i_same_mass q om m beta) (zp_d_i_m_m_i_same_mass q' om' m' beta').
Proof. intros. unfold zp_d_i_m_m_i_same_mass; cbv zeta. hm. Qed.
Ltac hf_zp_d_i_m_m_i_same_mass := lazymatch goal with |- hom _ _ (zp_d_i_m_m_i_same_mass _ _ _ _) _ => eapply hom_k; [eapply zp_d_i_m_m_i_same_mass_hom; hm|reflexivity] | _ => hf_zp_d_i_m_m_i end.
Ltac hm_fun ::= hf_zp_d_i_m_m_i_same_mass.
Lemma zp_d_i_m_0_i_hom {T1 : Type} {NT1 : Num T1} {HT1 : HomNum lam T1} {T2 : Type} {NT2 : Num T2} {HT2 : HomNum lam T2} (q q' : R) (om om' : T1) (m m' : T2) (beta beta' : R) : hom lam (1) q q' -> hom lam (1) om om' -> hom lam (1) m m' -> hom lam (-1) beta beta' -> hom lam (-3) (zp_d_i_m_0_i q om m beta) (zp_d_i_m_0_i q' om' m' beta').
Proof. intros. unfold zp_d_i_m_0_i; cbv zeta. hm. Qed.
Ltac hf_zp_d_i_m_0_i := lazymatch goal with |- hom _ _ (zp_d_i_m_0_i _ _ _ _) _ => eapply hom_k; [eapply zp_d_i_m_0_i_hom; hm|reflexivity] | _ => hf_zp_d_i_m_m_i_same_mass end.
Ltac hm_fun ::= hf_zp_d_i_m_0_i.
Lemma zp_d_i_0_0_i_hom {T : Type} {NT : Num T} {HT : HomNum lam T} (q q' : R) (om om' : T) (beta beta' : R) : hom lam (1) q q' -> hom lam (1) om om' -> hom lam (-1) beta beta' -> hom lam (-3) (zp_d_i_0_0_i q om beta) (zp_d_i_0_0_i q' om' beta').
Proof. intros. unfold zp_d_i_0_0_i; cbv zeta. hm. Qed.
Ltac hf_zp_d_i_0_0_i := lazymatch goal with |- hom _ _ (zp_d_i_0_0_i _ _ _) _ => eapply hom_k; [eapply zp_d_i_0_0_i_hom; hm|reflexivity] | _ => hf_zp_d_i_m_0_i end.
Ltac hm_fun ::= hf_zp_d_i_0_0_i.
Lemma zp_d_i_m_m_l_i_hom {T1 : Type} {NT1 : Num T1} {HT1 : HomNum lam T1} {T2 : Type} {NT2 : Num T2} {HT2 : HomNum lam T2} {T3 : Type} {NT3 : Num T3} {HT3 : HomNum lam T3} (q q' : R) (om om' : T1) (m1 m1' : T2) (m2 m2' : T3) (beta beta' : R) : hom lam (1) q q' -> hom lam (1) om om' -> hom lam (1) m1 m1' -> hom lam (1) m2 m2' -> hom lam (-1) beta beta' -> hom lam (-1) (zp_d_i_m_m_l_i q om m1 m2 beta) (zp_d_i_m_m_l_i q' om' m1' m2' beta').
Proof. intros. unfold zp_d_i_m_m_l_i; cbv zeta. hm. Qed.
Ltac hf_zp_d_i_m_m_l_i := lazymatch goal with |- hom _ _ (zp_d_i_m_m_l_i _ _ _ _ _) _ => eapply hom_k; [eapply zp_d_i_m_m_l_i_hom; hm|reflexivity] | _ => hf_zp_d_i_0_0_i end.
Ltac hm_fun ::= hf_zp_d_i_m_m_l_i.
Lemma zp_d_i_m_m_l_i_same_mass_hom {T1 : Type} {NT1 : Num T1} {HT1 : HomNum lam T1} {T2 : Type} {NT2 : Num T2} {HT2 : HomNum lam T2} (q q' : R) (om om' : T1) (m m' : T2) (beta beta' : R) : hom lam (1) q q' -> hom lam (1) om om' -> hom lam (1) m m' -> hom lam (-1) beta beta' -> hom lam (-1) (zp_d_i_m_m_l_i_same_mass q om m beta) (zp_d_i_m_m_l_i_same_mass q' om' m' beta').
Proof. intros. unfold zp_d_i_m_m_l_i_same_mass; cbv zeta. hm. Qed.
Ltac hf_zp_d_i_m_m_l_i_same_mass := lazymatch goal with |- hom _ _ (zp_d_i_m_m_l_i_same_mass _ _ _ _) _ => eapply hom_k; [eapply zp_d_i_m_m_l_i_same_mass_hom; hm|reflexivity] | _ => hf_zp_d_i_m_m_l_i end.
Ltac hm_fun ::= hf_zp_d_i_m_m_l_i_same_mass.
Lemma zp_d_i_m_0_l_i_hom {T1 : Type} {NT1 : Num T1} {HT1 : HomNum lam T1} {T2 : Type} {NT2 : Num T2} {HT2 : HomNum lam T2} (q q' : R) (om om' : T1) (m m' : T2) (beta beta' : R) : hom lam (1) q q' -> hom lam (1) om om' -> hom lam (1) m m' -> hom lam (-1) beta beta' -> hom lam (-1) (zp_d_i_m_0_l_i q om m beta) (zp_d_i_m_0_l_i q' om' m' beta').
Proof. intros. unfold zp_d_i_m_0_l_i; cbv zeta. hm. Qed.
Ltac hf_zp_d_i_m_0_l_i := lazymatch goal with |- hom _ _ (zp_d_i_m_0_l_i _ _ _ _) _ => eapply hom_k; [eapply zp_d_i_m_0_l_i_hom; hm|reflexivity] | _ => hf_zp_d_i_m_m_l_i_same_mass end.
Ltac hm_fun ::= hf_zp_d_i_m_0_l_i.
Lemma zp_d_i_0_0_l_i_hom {T : Type} {NT : Num T} {HT : HomNum lam T} (q q' : R) (om om' : T) (beta beta' : R) : hom lam (1) q q' -> hom lam (1) om om' -> hom lam (-1) beta beta' -> hom lam (-1) (zp_d_i_0_0_l_i q om beta) (zp_d_i_0_0_l_i q' om' beta').
Proof. intros. unfold zp_d_i_0_0_l_i; cbv zeta. hm. Qed.
Ltac hf_zp_d_i_0_0_l_i := lazymatch goal with |- hom _ _ (zp_d_i_0_0_l_i _ _ _) _ => eapply hom_k; [eapply zp_d_i_0_0_l_i_hom; hm|reflexivity] | _ => hf_zp_d_i_m_0_l_i end.
Ltac hm_fun ::= hf_zp_d_i_0_0_l_i.
Lemma zp_d_i_m_m_t_i_hom {T1 : Type} {NT1 : Num T1} {HT1 : HomNum lam T1} {T2 : Type} {NT2 : Num T2} {HT2 : HomNum lam T2} {T3 : Type} {NT3 : Num T3} {HT3 : HomNum lam T3} (q q' : R) (om om' : T1) (m1 m1' : T2) (m2 m2' : T3) (beta beta' : R) : hom lam (1) q q' -> hom lam (1) om om' -> hom lam (1) m1 m1' -> hom lam (1) m2 m2' -> hom lam (-1) beta beta' -> hom lam (-1) (zp_d_i_m_m_t_i q om m1 m2 beta) (zp_d_i_m_m_t_i q' om' m1' m2' beta').
Proof. intros. unfold zp_d_i_m_m_t_i; cbv zeta. hm. Qed.
Ltac hf_zp_d_i_m_m_t_i := lazymatch goal with |- hom _ _ (zp_d_i_m_m_t_i _ _ _ _ _) _ => eapply hom_k; [eapply zp_d_i_m_m_t_i_hom; hm|reflexivity] | _ => hf_zp_d_i_0_0_l_i end.
Ltac hm_fun ::= hf_zp_d_i_m_m_t_i.
Lemma zp_d_i_m_m_t_i_same_mass_hom {T1 : Type} {NT1 : Num T1} {HT1 : HomNum lam T1} {T2 : Type} {NT2 : Num T2} {HT2 : HomNum lam T2} (q q' : R) (om om' : T1) (m m' : T2) (beta beta' : R) : hom lam (1) q q' -> hom lam (1) om om' -> hom lam (1) m m' -> hom lam (-1) beta beta' -> hom lam (-1) (zp_d_i_m_m_t_i_same_mass q om m beta) (zp_d_i_m_m_t_i_same_mass q' om' m' beta').
Proof. intros. unfold zp_d_i_m_m_t_i_same_mass; cbv zeta. hm. Qed.
Ltac hf_zp_d_i_m_m_t_i_same_mass := lazymatch goal with |- hom _ _ (zp_d_i_m_m_t_i_same_mass _ _ _ _) _ => eapply hom_k; [eapply zp_d_i_m_m_t_i_same_mass_hom; hm|reflexivity] | _ => hf_zp_d_i_m_m_t_i end.
Ltac hm_fun ::= hf_zp_d_i_m_m_t_i_same_mass.
Lemma zp_d_i_m_0_t_i_hom {T1 : Type} {NT1 : Num T1} {HT1 : HomNum lam T1} {T2 : Type} {NT2 : Num T2} {HT2 : HomNum lam T2} (q q' : R) (om om' : T1) (m m' : T2) (beta beta' : R) : hom lam (1) q q' -> hom lam (1) om om' -> hom lam (1) m m' -> hom lam (-1) beta beta' -> hom lam (-1) (zp_d_i_m_0_t_i q om m beta) (zp_d_i_m_0_t_i q' om' m' beta').
Proof. intros. unfold zp_d_i_m_0_t_i; cbv zeta. hm. Qed.
Ltac hf_zp_d_i_m_0_t_i := lazymatch goal with |- hom _ _ (zp_d_i_m_0_t_i _ _ _ _) _ => eapply hom_k; [eapply zp_d_i_m_0_t_i_hom; hm|reflexivity] | _ => hf_zp_d_i_m_m_t_i_same_mass end.
Ltac hm_fun ::= hf_zp_d_i_m_0_t_i.
Lemma zp_d_i_0_0_t_i_hom {T : Type} {NT : Num T} {HT : HomNum lam T} (q q' : R) (om om' : T) (beta beta' : R) : hom lam (1) q q' -> hom lam (1) om om' -> hom lam (-1) beta beta' -> hom lam (-1) (zp_d_i_0_0_t_i q om beta) (zp_d_i_0_0_t_i q' om' beta').
Proof. intros. unfold zp_d_i_0_0_t_i; cbv zeta. hm. Qed.
Ltac hf_zp_d_i_0_0_t_i := lazymatch goal with |- hom _ _ (zp_d_i_0_0_t_i _ _ _) _ => eapply hom_k; [eapply zp_d_i_0_0_t_i_hom; hm|reflexivity] | _ => hf_zp_d_i_m_0_t_i end.
Ltac hm_fun ::= hf_zp_d_i_0_0_t_i.
Lemma ghost_self_energy_thermal_part_landau_i_hom {T : Type} {NT : Num T} {HT : HomNum lam T} (q q' : R) (om om' : T) (p p' : R) (m m' : R) (beta beta' : R) : hom lam (1) q q' -> hom lam (1) om om' -> hom lam (1) p p' -> hom lam (1) m m' -> hom lam (-1) beta beta' -> hom lam (1) (ghost_self_energy_thermal_part_landau_i q om p m beta) (ghost_self_energy_thermal_part_landau_i q' om' p' m' beta').
Proof. intros. unfold ghost_self_energy_thermal_part_landau_i; cbv zeta. hm. Qed.
Ltac hf_ghost_self_energy_thermal_part_landau_i := lazymatch goal with |- hom _ _ (ghost_self_energy_thermal_part_landau_i _ _ _ _ _) _ => eapply hom_k; [eapply ghost_self_energy_thermal_part_landau_i_hom; hm|reflexivity] | _ => hf_zp_d_i_0_0_t_i end.
Ltac hm_fun ::= hf_ghost_self_energy_thermal_part_landau_i.
Lemma zm_ghost_self_energy_thermal_part_landau_i_hom  (q q' : R) (p p' : R) (m m' : R) (beta beta' : R) : hom lam (1) q q' -> hom lam (1) p p' -> hom lam (1) m m' -> hom lam (-1) beta beta' -> hom lam (1) (zm_ghost_self_energy_thermal_part_landau_i q p m beta) (zm_ghost_self_energy_thermal_part_landau_i q' p' m' beta').
Proof. intros. unfold zm_ghost_self_energy_thermal_part_landau_i; cbv zeta. hm. Qed.
Ltac hf_zm_ghost_self_energy_thermal_part_landau_i := lazymatch goal with |- hom _ _ (zm_ghost_self_energy_thermal_part_landau_i _ _ _ _) _ => eapply hom_k; [eapply zm_ghost_self_energy_thermal_part_landau_i_hom; hm|reflexivity] | _ => hf_ghost_self_energy_thermal_part_landau_i end.
Ltac hm_fun ::= hf_zm_ghost_self_energy_thermal_part_landau_i.
Lemma zp_ghost_self_energy_thermal_part_landau_i_hom {T : Type} {NT : Num T} {HT : HomNum lam T} (q q' : R) (om om' : T) (m m' : R) (beta beta' : R) : hom lam (1) q q' -> hom lam (1) om om' -> hom lam (1) m m' -> hom lam (-1) beta beta' -> hom lam (1) (zp_ghost_self_energy_thermal_part_landau_i q om m beta) (zp_ghost_self_energy_thermal_part_landau_i q' om' m' beta').
Proof. intros. unfold zp_ghost_self_energy_thermal_part_landau_i; cbv zeta. hm. Qed.
Ltac hf_zp_ghost_self_energy_thermal_part_landau_i := lazymatch goal with |- hom _ _ (zp_ghost_self_energy_thermal_part_landau_i _ _ _ _) _ => eapply hom_k; [eapply zp_ghost_self_energy_thermal_part_landau_i_hom; hm|reflexivity] | _ => hf_zm_ghost_self_energy_thermal_part_landau_i end.
Ltac hm_fun ::= hf_zp_ghost_self_energy_thermal_part_landau_i.
Lemma polarization_glue_l_thermal_part_landau_i_hom {T1 : Type} {NT1 : Num T1} {HT1 : HomNum lam T1} {T2 : Type} {NT2 : Num T2} {HT2 : HomNum lam T2} (q q' : R) (om om' : T1) (p p' : T2) (m m' : R) (beta beta' : R) : hom lam (1) q q' -> hom lam (1) om om' -> hom lam (1) p p' -> hom lam (1) m m' -> hom lam (-1) beta beta' -> hom lam (1) (polarization_glue_l_thermal_part_landau_i q om p m beta) (polarization_glue_l_thermal_part_landau_i q' om' p' m' beta').
Proof. intros. unfold polarization_glue_l_thermal_part_landau_i; cbv zeta. hm. Qed.
Ltac hf_polarization_glue_l_thermal_part_landau_i := lazymatch goal with |- hom _ _ (polarization_glue_l_thermal_part_landau_i _ _ _ _ _) _ => eapply hom_k; [eapply polarization_glue_l_thermal_part_landau_i_hom; hm|reflexivity] | _ => hf_zp_ghost_self_energy_thermal_part_landau_i end.
Ltac hm_fun ::= hf_polarization_glue_l_thermal_part_landau_i.
Lemma polarization_glue_t_thermal_part_landau_i_hom {T : Type} {NT : Num T} {HT : HomNum lam T} (q q' : R) (om om' : T) (p p' : R) (m m' : R) (beta beta' : R) : hom lam (1) q q' -> hom lam (1) om om' -> hom lam (1) p p' -> hom lam (1) m m' -> hom lam (-1) beta beta' -> hom lam (1) (polarization_glue_t_thermal_part_landau_i q om p m beta) (polarization_glue_t_thermal_part_landau_i q' om' p' m' beta').
Proof. intros. unfold polarization_glue_t_thermal_part_landau_i; cbv zeta. hm. Qed.
Ltac hf_polarization_glue_t_thermal_part_landau_i := lazymatch goal with |- hom _ _ (polarization_glue_t_thermal_part_landau_i _ _ _ _ _) _ => eapply hom_k; [eapply polarization_glue_t_thermal_part_landau_i_hom; hm|reflexivity] | _ => hf_polarization_glue_l_thermal_part_landau_i end.
Ltac hm_fun ::= hf_polarization_glue_t_thermal_part_landau_i.
Lemma polarization_quark_l_thermal_part_landau_i_hom {T1 : Type} {NT1 : Num T1} {HT1 : HomNum lam T1} {T2 : Type} {NT2 : Num T2} {HT2 : HomNum lam T2} (nc : nat) (q q' : R) (om om' : T1) (p p' : T2) (mq mq' : R) (beta beta' : R) (mu mu' : R) : hom lam (1) q q' -> hom lam (1) om om' -> hom lam (1) p p' -> hom lam (1) mq mq' -> hom lam (-1) beta beta' -> hom lam (1) mu mu' -> hom lam (1) (polarization_quark_l_thermal_part_landau_i nc q om p mq beta mu) (polarization_quark_l_thermal_part_landau_i nc q' om' p' mq' beta' mu').
Proof. intros. unfold polarization_quark_l_thermal_part_landau_i; cbv zeta. hm. Qed.
Ltac hf_polarization_quark_l_thermal_part_landau_i := lazymatch goal with |- hom _ _ (polarization_quark_l_thermal_part_landau_i _ _ _ _ _ _ _) _ => eapply hom_k; [eapply polarization_quark_l_thermal_part_landau_i_hom; hm|reflexivity] | _ => hf_polarization_glue_t_thermal_part_landau_i end.
Ltac hm_fun ::= hf_polarization_quark_l_thermal_part_landau_i.
Lemma polarization_quark_t_thermal_part_landau_i_hom {T : Type} {NT : Num T} {HT : HomNum lam T} (nc : nat) (q q' : R) (om om' : T) (p p' : R) (mq mq' : R) (beta beta' : R) (mu mu' : R) : hom lam (1) q q' -> hom lam (1) om om' -> hom lam (1) p p' -> hom lam (1) mq mq' -> hom lam (-1) beta beta' -> hom lam (1) mu mu' -> hom lam (1) (polarization_quark_t_thermal_part_landau_i nc q om p mq beta mu) (polarization_quark_t_thermal_part_landau_i nc q' om' p' mq' beta' mu').
Proof. intros. unfold polarization_quark_t_thermal_part_landau_i; cbv zeta. hm. Qed.
Ltac hf_polarization_quark_t_thermal_part_landau_i := lazymatch goal with |- hom _ _ (polarization_quark_t_thermal_part_landau_i _ _ _ _ _ _ _) _ => eapply hom_k; [eapply polarization_quark_t_thermal_part_landau_i_hom; hm|reflexivity] | _ => hf_polarization_quark_l_thermal_part_landau_i end.
Ltac hm_fun ::= hf_polarization_quark_t_thermal_part_landau_i.
Lemma polarization_quark_l_thermal_part_zero_temp_landau_i_hom {T1 : Type} {NT1 : Num T1} {HT1 : HomNum lam T1} {T2 : Type} {NT2 : Num T2} {HT2 : HomNum lam T2} (nc : nat) (q q' : R) (om om' : T1) (p p' : T2) (mq mq' : R) (mu mu' : R) : hom lam (1) q q' -> hom lam (1) om om' -> hom lam (1) p p' -> hom lam (1) mq mq' -> hom lam (1) mu mu' -> hom lam (1) (polarization_quark_l_thermal_part_zero_temp_landau_i nc q om p mq mu) (polarization_quark_l_thermal_part_zero_temp_landau_i nc q' om' p' mq' mu').
Proof. intros. unfold polarization_quark_l_thermal_part_zero_temp_landau_i; cbv zeta. hm. Qed.
Ltac hf_polarization_quark_l_thermal_part_zero_temp_landau_i := lazymatch goal with |- hom _ _ (polarization_quark_l_thermal_part_zero_temp_landau_i _ _ _ _ _ _) _ => eapply hom_k; [eapply polarization_quark_l_thermal_part_zero_temp_landau_i_hom; hm|reflexivity] | _ => hf_polarization_quark_t_thermal_part_landau_i end.
Ltac hm_fun ::= hf_polarization_quark_l_thermal_part_zero_temp_landau_i.
Lemma polarization_quark_t_thermal_part_zero_temp_landau_i_hom {T : Type} {NT : Num T} {HT : HomNum lam T} (nc : nat) (q q' : R) (om om' : T) (p p' : R) (mq mq' : R) (mu mu' : R) : hom lam (1) q q' -> hom lam (1) om om' -> hom lam (1) p p' -> hom lam (1) mq mq' -> hom lam (1) mu mu' -> hom lam (1) (polarization_quark_t_thermal_part_zero_temp_landau_i nc q om p mq mu) (polarization_quark_t_thermal_part_zero_temp_landau_i nc q' om' p' mq' mu').
Proof. intros. unfold polarization_quark_t_thermal_part_zero_temp_landau_i; cbv zeta. hm. Qed.
Ltac hf_polarization_quark_t_thermal_part_zero_temp_landau_i := lazymatch goal with |- hom _ _ (polarization_quark_t_thermal_part_zero_temp_landau_i _ _ _ _ _ _) _ => eapply hom_k; [eapply polarization_quark_t_thermal_part_zero_temp_landau_i_hom; hm|reflexivity] | _ => hf_polarization_quark_l_thermal_part_zero_temp_landau_i end.
Ltac hm_fun ::= hf_polarization_quark_t_thermal_part_zero_temp_landau_i.
Lemma zm_polarization_glue_l_thermal_part_landau_i_hom  (q q' : R) (p p' : R) (m m' : R) (beta beta' : R) : hom lam (1) q q' -> hom lam (1) p p' -> hom lam (1) m m' -> hom lam (-1) beta beta' -> hom lam (1) (zm_polarization_glue_l_thermal_part_landau_i q p m beta) (zm_polarization_glue_l_thermal_part_landau_i q' p' m' beta').
Proof. intros. unfold zm_polarization_glue_l_thermal_part_landau_i; cbv zeta. hm. Qed.
Ltac hf_zm_polarization_glue_l_thermal_part_landau_i := lazymatch goal with |- hom _ _ (zm_polarization_glue_l_thermal_part_landau_i _ _ _ _) _ => eapply hom_k; [eapply zm_polarization_glue_l_thermal_part_landau_i_hom; hm|reflexivity] | _ => hf_polarization_quark_t_thermal_part_zero_temp_landau_i end.
Ltac hm_fun ::= hf_zm_polarization_glue_l_thermal_part_landau_i.
Lemma zm_polarization_glue_t_thermal_part_landau_i_hom  (q q' : R) (p p' : R) (m m' : R) (beta beta' : R) : hom lam (1) q q' -> hom lam (1) p p' -> hom lam (1) m m' -> hom lam (-1) beta beta' -> hom lam (1) (zm_polarization_glue_t_thermal_part_landau_i q p m beta) (zm_polarization_glue_t_thermal_part_landau_i q' p' m' beta').
Proof. intros. unfold zm_polarization_glue_t_thermal_part_landau_i; cbv zeta. hm. Qed.
Ltac hf_zm_polarization_glue_t_thermal_part_landau_i := lazymatch goal with |- hom _ _ (zm_polarization_glue_t_thermal_part_landau_i _ _ _ _) _ => eapply hom_k; [eapply zm_polarization_glue_t_thermal_part_landau_i_hom; hm|reflexivity] | _ => hf_zm_polarization_glue_l_thermal_part_landau_i end.
Ltac hm_fun ::= hf_zm_polarization_glue_t_thermal_part_landau_i.
Lemma zm_polarization_quark_l_thermal_part_landau_i_hom  (nc : nat) (q q' : R) (p p' : R) (mq mq' : R) (beta beta' : R) (mu mu' : R) : hom lam (1) q q' -> hom lam (1) p p' -> hom lam (1) mq mq' -> hom lam (-1) beta beta' -> hom lam (1) mu mu' -> hom lam (1) (zm_polarization_quark_l_thermal_part_landau_i nc q p mq beta mu) (zm_polarization_quark_l_thermal_part_landau_i nc q' p' mq' beta' mu').
Proof. intros. unfold zm_polarization_quark_l_thermal_part_landau_i; cbv zeta. hm. Qed.
Ltac hf_zm_polarization_quark_l_thermal_part_landau_i := lazymatch goal with |- hom _ _ (zm_polarization_quark_l_thermal_part_landau_i _ _ _ _ _ _) _ => eapply hom_k; [eapply zm_polarization_quark_l_thermal_part_landau_i_hom; hm|reflexivity] | _ => hf_zm_polarization_glue_t_thermal_part_landau_i end.
Ltac hm_fun ::= hf_zm_polarization_quark_l_thermal_part_landau_i.
Lemma zm_polarization_quark_t_thermal_part_landau_i_hom  (nc : nat) (q q' : R) (p p' : R) (mq mq' : R) (beta beta' : R) (mu mu' : R) : hom lam (1) q q' -> hom lam (1) p p' -> hom lam (1) mq mq' -> hom lam (-1) beta beta' -> hom lam (1) mu mu' -> hom lam (1) (zm_polarization_quark_t_thermal_part_landau_i nc q p mq beta mu) (zm_polarization_quark_t_thermal_part_landau_i nc q' p' mq' beta' mu').
Proof. intros. unfold zm_polarization_quark_t_thermal_part_landau_i; cbv zeta. hm. Qed.
Ltac hf_zm_polarization_quark_t_thermal_part_landau_i := lazymatch goal with |- hom _ _ (zm_polarization_quark_t_thermal_part_landau_i _ _ _ _ _ _) _ => eapply hom_k; [eapply zm_polarization_quark_t_thermal_part_landau_i_hom; hm|reflexivity] | _ => hf_zm_polarization_quark_l_thermal_part_landau_i end.
Ltac hm_fun ::= hf_zm_polarization_quark_t_thermal_part_landau_i.
Lemma zm_polarization_quark_l_thermal_part_zero_temp_landau_i_hom  (nc : nat) (q q' : R) (p p' : R) (mq mq' : R) (mu mu' : R) : hom lam (1) q q' -> hom lam (1) p p' -> hom lam (1) mq mq' -> hom lam (1) mu mu' -> hom lam (1) (zm_polarization_quark_l_thermal_part_zero_temp_landau_i nc q p mq mu) (zm_polarization_quark_l_thermal_part_zero_temp_landau_i nc q' p' mq' mu').
Proof. intros. unfold zm_polarization_quark_l_thermal_part_zero_temp_landau_i; cbv zeta. hm. Qed.
Ltac hf_zm_polarization_quark_l_thermal_part_zero_temp_landau_i := lazymatch goal with |- hom _ _ (zm_polarization_quark_l_thermal_part_zero_temp_landau_i _ _ _ _ _) _ => eapply hom_k; [eapply zm_polarization_quark_l_thermal_part_zero_temp_landau_i_hom; hm|reflexivity] | _ => hf_zm_polarization_quark_t_thermal_part_landau_i end.
Ltac hm_fun ::= hf_zm_polarization_quark_l_thermal_part_zero_temp_landau_i.
Lemma zm_polarization_quark_t_thermal_part_zero_temp_landau_i_hom  (nc : nat) (q q' : R) (p p' : R) (mq mq' : R) (mu mu' : R) : hom lam (1) q q' -> hom lam (1) p p' -> hom lam (1) mq mq' -> hom lam (1) mu mu' -> hom lam (1) (zm_polarization_quark_t_thermal_part_zero_temp_landau_i nc q p mq mu) (zm_polarization_quark_t_thermal_part_zero_temp_landau_i nc q' p' mq' mu').
Proof. intros. unfold zm_polarization_quark_t_thermal_part_zero_temp_landau_i; cbv zeta. hm. Qed.
Ltac hf_zm_polarization_quark_t_thermal_part_zero_temp_landau_i := lazymatch goal with |- hom _ _ (zm_polarization_quark_t_thermal_part_zero_temp_landau_i _ _ _ _ _) _ => eapply hom_k; [eapply zm_polarization_quark_t_thermal_part_zero_temp_landau_i_hom; hm|reflexivity] | _ => hf_zm_polarization_quark_l_thermal_part_zero_temp_landau_i end.
Ltac hm_fun ::= hf_zm_polarization_quark_t_thermal_part_zero_temp_landau_i.
Lemma zp_polarization_glue_l_thermal_part_landau_i_hom {T : Type} {NT : Num T} {HT : HomNum lam T} (q q' : R) (om om' : T) (m m' : R) (beta beta' : R) : hom lam (1) q q' -> hom lam (1) om om' -> hom lam (1) m m' -> hom lam (-1) beta beta' -> hom lam (1) (zp_polarization_glue_l_thermal_part_landau_i q om m beta) (zp_polarization_glue_l_thermal_part_landau_i q' om' m' beta').
Proof. intros. unfold zp_polarization_glue_l_thermal_part_landau_i; cbv zeta. hm. Qed.
Ltac hf_zp_polarization_glue_l_thermal_part_landau_i := lazymatch goal with |- hom _ _ (zp_polarization_glue_l_thermal_part_landau_i _ _ _ _) _ => eapply hom_k; [eapply zp_polarization_glue_l_thermal_part_landau_i_hom; hm|reflexivity] | _ => hf_zm_polarization_quark_t_thermal_part_zero_temp_landau_i end.
Ltac hm_fun ::= hf_zp_polarization_glue_l_thermal_part_landau_i.
Lemma zp_polarization_glue_t_thermal_part_landau_i_hom {T : Type} {NT : Num T} {HT : HomNum lam T} (q q' : R) (om om' : T) (m m' : R) (beta beta' : R) : hom lam (1) q q' -> hom lam (1) om om' -> hom lam (1) m m' -> hom lam (-1) beta beta' -> hom lam (1) (zp_polarization_glue_t_thermal_part_landau_i q om m beta) (zp_polarization_glue_t_thermal_part_landau_i q' om' m' beta').
Proof. intros. unfold zp_polarization_glue_t_thermal_part_landau_i; cbv zeta. hm. Qed.
Ltac hf_zp_polarization_glue_t_thermal_part_landau_i := lazymatch goal with |- hom _ _ (zp_polarization_glue_t_thermal_part_landau_i _ _ _ _) _ => eapply hom_k; [eapply zp_polarization_glue_t_thermal_part_landau_i_hom; hm|reflexivity] | _ => hf_zp_polarization_glue_l_thermal_part_landau_i end.
Ltac hm_fun ::= hf_zp_polarization_glue_t_thermal_part_landau_i.
Lemma zp_polarization_quark_l_thermal_part_landau_i_hom {T : Type} {NT : Num T} {HT : HomNum lam T} (nc : nat) (q q' : R) (om om' : T) (mq mq' : R) (beta beta' : R) (mu mu' : R) : hom lam (1) q q' -> hom lam (1) om om' -> hom lam (1) mq mq' -> hom lam (-1) beta beta' -> hom lam (1) mu mu' -> hom lam (1) (zp_polarization_quark_l_thermal_part_landau_i nc q om mq beta mu) (zp_polarization_quark_l_thermal_part_landau_i nc q' om' mq' beta' mu').
Proof. intros. unfold zp_polarization_quark_l_thermal_part_landau_i; cbv zeta. hm. Qed.
Ltac hf_zp_polarization_quark_l_thermal_part_landau_i := lazymatch goal with |- hom _ _ (zp_polarization_quark_l_thermal_part_landau_i _ _ _ _ _ _) _ => eapply hom_k; [eapply zp_polarization_quark_l_thermal_part_landau_i_hom; hm|reflexivity] | _ => hf_zp_polarization_glue_t_thermal_part_landau_i end.
Ltac hm_fun ::= hf_zp_polarization_quark_l_thermal_part_landau_i.
Lemma zp_polarization_quark_t_thermal_part_landau_i_hom {T : Type} {NT : Num T} {HT : HomNum lam T} (nc : nat) (q q' : R) (om om' : T) (mq mq' : R) (beta beta' : R) (mu mu' : R) : hom lam (1) q q' -> hom lam (1) om om' -> hom lam (1) mq mq' -> hom lam (-1) beta beta' -> hom lam (1) mu mu' -> hom lam (1) (zp_polarization_quark_t_thermal_part_landau_i nc q om mq beta mu) (zp_polarization_quark_t_thermal_part_landau_i nc q' om' mq' beta' mu').
Proof. intros. unfold zp_polarization_quark_t_thermal_part_landau_i; cbv zeta. hm. Qed.
Ltac hf_zp_polarization_quark_t_thermal_part_landau_i := lazymatch goal with |- hom _ _ (zp_polarization_quark_t_thermal_part_landau_i _ _ _ _ _ _) _ => eapply hom_k; [eapply zp_polarization_quark_t_thermal_part_landau_i_hom; hm|reflexivity] | _ => hf_zp_polarization_quark_l_thermal_part_landau_i end.
Ltac hm_fun ::= hf_zp_polarization_quark_t_thermal_part_landau_i.
Lemma zp_polarization_quark_l_thermal_part_zero_temp_landau_i_hom {T : Type} {NT : Num T} {HT : HomNum lam T} (nc : nat) (q q' : R) (om om' : T) (mq mq' : R) (mu mu' : R) : hom lam (1) q q' -> hom lam (1) om om' -> hom lam (1) mq mq' -> hom lam (1) mu mu' -> hom lam (1) (zp_polarization_quark_l_thermal_part_zero_temp_landau_i nc q om mq mu) (zp_polarization_quark_l_thermal_part_zero_temp_landau_i nc q' om' mq' mu').
Proof. intros. unfold zp_polarization_quark_l_thermal_part_zero_temp_landau_i; cbv zeta. hm. Qed.
Ltac hf_zp_polarization_quark_l_thermal_part_zero_temp_landau_i := lazymatch goal with |- hom _ _ (zp_polarization_quark_l_thermal_part_zero_temp_landau_i _ _ _ _ _) _ => eapply hom_k; [eapply zp_polarization_quark_l_thermal_part_zero_temp_landau_i_hom; hm|reflexivity] | _ => hf_zp_polarization_quark_t_thermal_part_landau_i end.
Ltac hm_fun ::= hf_zp_polarization_quark_l_thermal_part_zero_temp_landau_i.
Lemma zp_polarization_quark_t_thermal_part_zero_temp_landau_i_hom {T : Type} {NT : Num T} {HT : HomNum lam T} (nc : nat) (q q' : R) (om om' : T) (mq mq' : R) (mu mu' : R) : hom lam (1) q q' -> hom lam (1) om om' -> hom lam (1) mq mq' -> hom lam (1) mu mu' -> hom lam (1) (zp_polarization_quark_t_thermal_part_zero_temp_landau_i nc q om mq mu) (zp_polarization_quark_t_thermal_part_zero_temp_landau_i nc q' om' mq' mu').
Proof. intros. unfold zp_polarization_quark_t_thermal_part_zero_temp_landau_i; cbv zeta. hm. Qed.
Ltac hf_zp_polarization_quark_t_thermal_part_zero_temp_landau_i := lazymatch goal with |- hom _ _ (zp_polarization_quark_t_thermal_part_zero_temp_landau_i _ _ _ _ _) _ => eapply hom_k; [eapply zp_polarization_quark_t_thermal_part_zero_temp_landau_i_hom; hm|reflexivity] | _ => hf_zp_polarization_quark_l_thermal_part_zero_temp_landau_i end.
Ltac hm_fun ::= hf_zp_polarization_quark_t_thermal_part_zero_temp_landau_i.
End Functions.
