(** * Mass derivatives of the bubble integrands *)
From Coq Require Import Reals Lra Lia List.
From Coquelicot Require Import Coquelicot.
From Verif Require Import Num CField MCommon MThermal SpecDeriv SpecInteg PCplx PVac PDistr PMass2 PReal PForms PForms2 SpecLim PLim PLogs PMass PDeriv.
Import List ListNotations.
Open Scope R_scope.

Section Paths.
Variables (om p : R).
Hypothesis Hom : om <> 0.
Hypothesis Hp : 0 < p.

(** Partial derivatives of the real and imaginary parts of the logarithm. *)
Definition LAq q e d := 2 * p * (Sr om p d + 2 * q * p) / NP q om p e d + 2 * p * (Sr om p d - 2 * q * p) / NM q om p e d.
Definition LAd q e d := (Sr om p d + 2 * q * p) / NP q om p e d - (Sr om p d - 2 * q * p) / NM q om p e d.
Definition LAe q e d := 2 * om * (2 * e * om) / NP q om p e d - 2 * om * (2 * e * om) / NM q om p e d.
Definition PHq q e d := - (2 * p * (2 * e * om) / NP q om p e d) - 2 * p * (2 * e * om) / NM q om p e d.
Definition PHd q e d := - (2 * e * om / NP q om p e d) + 2 * e * om / NM q om p e d.
Definition PHe q e d := 2 * om * (Sr om p d + 2 * q * p) / NP q om p e d - 2 * om * (Sr om p d - 2 * q * p) / NM q om p e d.

Definition G0q q e d := 2 * LAq q e d.
Definition G0e q e d := 2 * LAe q e d.
Definition G0d q e d := 2 * LAd q e d.
Definition Glq q e d := 2 * (LAq q e d * X2 om p e d - PHq q e d * Y2 om p e d) - om * om * (8 * p * Sr om p d).
Definition Gle q e d := 2 * (LAe q e d * X2 om p e d - PHe q e d * Y2 om p e d)
  + 2 * (LA q om p e d * (- (2 * W om p e * (2 * (om * om + p * p)))) - PH q om p e d * (2 * (om * Sr om p d) * (2 * (om * om + p * p)))).
Definition Gld q e d := 2 * (LAd q e d * X2 om p e d - PHd q e d * Y2 om p e d)
  + 2 * (LA q om p e d * (2 * (om * om) * Sr om p d) - PH q om p e d * (2 * om * W om p e)) - om * om * (8 * q * p).
Definition Gtq q e d := 2 * (LAq q e d * (Sr om p d * Sr om p d - (2 * e * om) * (2 * e * om) - (2 * q * p) * (2 * q * p)) - PHq q e d * (2 * Sr om p d * (2 * e * om)))
  + 2 * (LA q om p e d * (- (2 * (2 * q * p) * (2 * p)))) - 8 * p * Sr om p d.
Definition Gte q e d := 2 * (LAe q e d * (Sr om p d * Sr om p d - (2 * e * om) * (2 * e * om) - (2 * q * p) * (2 * q * p)) - PHe q e d * (2 * Sr om p d * (2 * e * om)))
  + 2 * (LA q om p e d * (- (2 * (2 * e * om) * (2 * om))) - PH q om p e d * (2 * Sr om p d * (2 * om))).
Definition Gtd q e d := 2 * (LAd q e d * (Sr om p d * Sr om p d - (2 * e * om) * (2 * e * om) - (2 * q * p) * (2 * q * p)) - PHd q e d * (2 * Sr om p d * (2 * e * om)))
  + 2 * (LA q om p e d * (2 * Sr om p d) - PH q om p e d * (2 * (2 * e * om))) - 8 * q * p.

Section One.
Variables (fq fe fd : R -> R) (t a b c : R).
Hypothesis Hq : is_derive fq t a.
Hypothesis He : is_derive fe t b.
Hypothesis Hd : is_derive fd t c.
Hypothesis Pq : 0 < fq t.
Hypothesis Pe : 0 < fe t.
Lemma Dq : Derive fq t = a. Proof. now apply is_derive_unique. Qed.
Lemma De : Derive fe t = b. Proof. now apply is_derive_unique. Qed.
Lemma Dd : Derive fd t = c. Proof. now apply is_derive_unique. Qed.
Ltac eta := change (fun x : R => fq x) with fq; change (fun x : R => fe x) with fe; change (fun x : R => fd x) with fd; rewrite ?Dq, ?De, ?Dd.
Lemma LA_path : is_derive (fun s => LA (fq s) om p (fe s) (fd s)) t (LAq (fq t) (fe t) (fd t) * a + LAe (fq t) (fe t) (fd t) * b + LAd (fq t) (fe t) (fd t) * c).
Proof.
  pose proof (NP_pos (fq t) om p (fe t) (fd t) Hom Pe) as HP. pose proof (NM_pos (fq t) om p (fe t) (fd t) Hom Pe) as HM.
  unfold LA, LAq, LAe, LAd, NP, NM, Sr in *. auto_derive.
  - repeat split; try (eexists; eassumption); lra.
  - eta. set (q := fq t) in *. set (e := fe t) in *. set (d := fd t) in *. field. split; lra.
Qed.
Lemma PH_path : is_derive (fun s => PH (fq s) om p (fe s) (fd s)) t (PHq (fq t) (fe t) (fd t) * a + PHe (fq t) (fe t) (fd t) * b + PHd (fq t) (fe t) (fd t) * c).
Proof.
  pose proof (NP_pos (fq t) om p (fe t) (fd t) Hom Pe) as HP. pose proof (NM_pos (fq t) om p (fe t) (fd t) Hom Pe) as HM.
  assert (HY : 2 * (2 * fq t * p) * (2 * fe t * om) <> 0) by (repeat apply Rmult_integral_contrapositive_currified; lra).
  unfold PH, PT, PHq, PHe, PHd, NP, NM, Sr in *. auto_derive.
  - repeat split; try (eexists; eassumption); auto; lra.
  - eta. set (q := fq t) in *. set (e := fe t) in *. set (d := fd t) in *. field.
  assert (X : 0 < ((om * om + p * p + d - 2 * q * p) * (om * om + p * p + d - 2 * q * p) + 2 * e * om * (2 * e * om)) * ((om * om + p * p + d + 2 * q * p) * (om * om + p * p + d + 2 * q * p) + 2 * e * om * (2 * e * om))) by now apply Rmult_lt_0_compat.
  repeat split; try lra.
Qed.

Let la s := LA (fq s) om p (fe s) (fd s).
Let ph s := PH (fq s) om p (fe s) (fd s).
Lemma Dla : Derive la t = LAq (fq t) (fe t) (fd t) * a + LAe (fq t) (fe t) (fd t) * b + LAd (fq t) (fe t) (fd t) * c.
Proof. apply is_derive_unique, LA_path. Qed.
Lemma Dph : Derive ph t = PHq (fq t) (fe t) (fd t) * a + PHe (fq t) (fe t) (fd t) * b + PHd (fq t) (fe t) (fd t) * c.
Proof. apply is_derive_unique, PH_path. Qed.
Lemma Ela : ex_derive la t. Proof. eexists. apply LA_path. Qed.
Lemma Eph : ex_derive ph t. Proof. eexists. apply PH_path. Qed.
Ltac eta' := change (fun x : R => la x) with la; change (fun x : R => ph x) with ph; eta; rewrite ?Dla, ?Dph; unfold la, ph.
Lemma G0_path : is_derive (fun s => G0 (fq s) om p (fe s) (fd s)) t (G0q (fq t) (fe t) (fd t) * a + G0e (fq t) (fe t) (fd t) * b + G0d (fq t) (fe t) (fd t) * c).
Proof.
  unfold G0. apply (is_derive_ext (fun s => 2 * la s)); [reflexivity|]. auto_derive.
  - repeat split; apply Ela.
  - eta'. unfold G0q, G0e, G0d. ring.
Qed.
Lemma Gl_path : is_derive (fun s => Gl (fq s) om p (fe s) (fd s)) t (Glq (fq t) (fe t) (fd t) * a + Gle (fq t) (fe t) (fd t) * b + Gld (fq t) (fe t) (fd t) * c).
Proof.
  unfold Gl. apply (is_derive_ext (fun s => 2 * (la s * X2 om p (fe s) (fd s) - ph s * Y2 om p (fe s) (fd s)) - om * om * (8 * fq s * p * Sr om p (fd s)))); [reflexivity|].
  unfold X2, Y2, W, Sr. auto_derive.
  - repeat split; try apply Ela; try apply Eph; eexists; eassumption.
  - eta'. unfold Glq, Gle, Gld, X2, Y2, W, Sr. ring.
Qed.
Lemma Gt_path : is_derive (fun s => Gt (fq s) om p (fe s) (fd s)) t (Gtq (fq t) (fe t) (fd t) * a + Gte (fq t) (fe t) (fd t) * b + Gtd (fq t) (fe t) (fd t) * c).
Proof.
  unfold Gt. apply (is_derive_ext (fun s => 2 * (la s * (Sr om p (fd s) * Sr om p (fd s) - (2 * fe s * om) * (2 * fe s * om) - (2 * fq s * p) * (2 * fq s * p)) - ph s * (2 * Sr om p (fd s) * (2 * fe s * om))) - 8 * fq s * p * Sr om p (fd s))); [reflexivity|].
  unfold Sr. auto_derive.
  - repeat split; try apply Ela; try apply Eph; eexists; eassumption.
  - eta'. unfold Gtq, Gte, Gtd, Sr. ring.
Qed.
End One.
End Paths.

Lemma nE_gf q m beta : nE q m beta = gf beta (m * m + q * q).
Proof. unfold nE, gf. rewrite energy_R. reflexivity. Qed.
Lemma sqrt_d (u : R -> R) t u' : is_derive u t u' -> 0 < u t -> is_derive (fun s => sqrt (u s)) t (u' / (2 * sqrt (u t))).
Proof.
  intros H P. pose proof (sqrt_lt_R0 _ P). auto_derive; [split; [now exists u'|auto]|]. change (fun x : R => u x) with u. rewrite (is_derive_unique _ _ _ H). field. lra.
Qed.
Lemma gf_comp beta (u : R -> R) t u' : 0 < beta -> is_derive u t u' -> 0 < u t -> is_derive (fun s => gf beta (u s)) t (u' * gf' beta (u t)).
Proof. intros Hb H P. apply (is_derive_comp (gf beta) u); [now apply gf_d|exact H]. Qed.

Section Combine.
Variables (q m1 m2 beta cc : R) (G Gq Ge Gd : R -> R -> R -> R).
Hypothesis Hq : 0 < q.
Hypothesis Hm : m1 <> 0.
Hypothesis Hb : 0 < beta.
Hypothesis path : forall (fq fe fd : R -> R) (t a b c : R), is_derive fq t a -> is_derive fe t b -> is_derive fd t c -> 0 < fq t -> 0 < fe t ->
  is_derive (fun s => G (fq s) (fe s) (fd s)) t (Gq (fq t) (fe t) (fd t) * a + Ge (fq t) (fe t) (fd t) * b + Gd (fq t) (fe t) (fd t) * c).
Let x := m1 * m1 + q * q.
Let e1 := energy q m1.
Let e2 := energy q m2.
Let n1 := nE q m1 beta.
Let n2 := nE q m2 beta.
Let d := dM m1 m2.
Lemma combine f D T : (forall mu, f mu = q * cc * (nE q mu beta * G q (energy q mu) (dM mu m2) + n2 * G q e2 (- dM mu m2))) ->
  (forall z, 0 < z -> T z = cc / 2 * (nE z m1 beta * G z (energy z m1) d)) ->
  D = cc * (q * n2 * Gd q e2 (- d) - q * n1 * Gd q e1 d - n1 * Gq q e1 d / 2) ->
  mass_derivative_up_to f m1 D T q.
Proof.
  intros Hf HT HD.
  assert (Px : 0 < x) by (unfold x; nra). assert (Pm : 0 < m1 * m1) by nra. pose proof (sqrt_lt_R0 _ Px) as Ps.
  assert (E1 : e1 = sqrt x) by apply energy_R.
  assert (P2 : 0 < e2) by (unfold e2; rewrite energy_R; apply sqrt_lt_R0; nra).
  assert (N1 : n1 = gf beta x) by apply nE_gf.
  set (A := fun z : R => G z (sqrt (m1 * m1 + z * z)) d). set (N := fun z : R => gf beta (m1 * m1 + z * z)).
  set (B := fun y : R => G q (sqrt (y + q * q)) (m2 * m2 - y)). set (B' := fun y : R => G q e2 (y - m2 * m2)). set (M := fun y : R => gf beta (y + q * q)).
  (* along the momentum *)
  assert (A1 : is_derive A q (Gq q e1 d * 1 + Ge q e1 d * (2 * q / (2 * sqrt x)) + Gd q e1 d * 0)).
  { unfold A. rewrite E1. apply (path (fun z => z) (fun z => sqrt (m1 * m1 + z * z)) (fun _ => d)); auto.
    - apply (is_derive_id q).
    - apply (sqrt_d (fun z => m1 * m1 + z * z)); [auto_derive; auto; ring|exact Px].
    - apply (is_derive_const (K := R_AbsRing) (V := R_NormedModule)). }
  assert (A2 : is_derive N q (2 * q * gf' beta x)).
  { unfold N. apply (gf_comp beta (fun z => m1 * m1 + z * z)); auto. auto_derive; auto; ring. }
  (* along the squared mass *)
  assert (B1 : is_derive B (m1 * m1) (Gq q e1 d * 0 + Ge q e1 d * (1 / (2 * sqrt x)) + Gd q e1 d * (-1))).
  { unfold B. rewrite E1. apply (path (fun _ => q) (fun y => sqrt (y + q * q)) (fun y => m2 * m2 - y)); auto.
    - apply (is_derive_const (K := R_AbsRing) (V := R_NormedModule)).
    - apply (sqrt_d (fun y => y + q * q)); [auto_derive; auto|exact Px].
    - auto_derive; auto. }
  assert (B2 : is_derive B' (m1 * m1) (Gq q e2 (- d) * 0 + Ge q e2 (- d) * 0 + Gd q e2 (- d) * 1)).
  { unfold B'. replace (- d) with (m1 * m1 - m2 * m2) by (unfold d, dM; ring). apply (path (fun _ => q) (fun _ => e2) (fun y => y - m2 * m2)); auto; try apply (is_derive_const (K := R_AbsRing) (V := R_NormedModule)). auto_derive; auto. }
  assert (B3 : is_derive M (m1 * m1) (1 * gf' beta x)).
  { unfold M. apply (gf_comp beta (fun y => y + q * q)); auto. auto_derive; auto. }
  assert (VA : A q = G q e1 d) by (unfold A; rewrite E1; reflexivity). assert (VB : B (m1 * m1) = G q e1 d) by (unfold B; rewrite E1; reflexivity).
  assert (VN : N q = n1) by (unfold N; now rewrite N1). assert (VM : M (m1 * m1) = n1) by (unfold M; now rewrite N1).
  exists (cc / 2 * (2 * q * gf' beta x * G q e1 d + n1 * (Gq q e1 d * 1 + Ge q e1 d * (2 * q / (2 * sqrt x)) + Gd q e1 d * 0))). split.
  - apply (is_derive_ext_loc (fun z => cc / 2 * (N z * A z))).
    { exists (mkposreal _ Hq). intros z Hz. apply Rabs_def2 in Hz. unfold minus, plus, opp in Hz. cbn in Hz. rewrite HT by lra. rewrite nE_gf, energy_R. reflexivity. }
    auto_derive; [repeat split; first [exact (ex_intro _ _ A2)|exact (ex_intro _ _ A1)]|]. change (fun x : R => N x) with N. change (fun x : R => A x) with A. rewrite (is_derive_unique _ _ _ A1), (is_derive_unique _ _ _ A2), VA, VN. ring.
  - unfold mass_derivative. apply (is_derive_ext_loc (fun y => q * cc * (M y * B y + n2 * B' y))).
    { exists (mkposreal _ Pm). intros y Hy. apply Rabs_def2 in Hy. unfold minus, plus, opp in Hy. cbn in Hy.
      rewrite Hf, nE_gf, energy_R. unfold M, B, B', dM. rewrite sqrt_sqrt by lra. replace (- (m2 * m2 - y)) with (y - m2 * m2) by ring. reflexivity. }
    auto_derive; [repeat split; first [exact (ex_intro _ _ B3)|exact (ex_intro _ _ B1)|exact (ex_intro _ _ B2)]|].
    change (fun x : R => M x) with M. change (fun x : R => B x) with B. change (fun x : R => B' x) with B'.
    rewrite (is_derive_unique _ _ _ B1), (is_derive_unique _ _ _ B2), (is_derive_unique _ _ _ B3), VB, VM, HD. field. lra.
Qed.
End Combine.

(** The three total derivatives in terms of the real forms. *)
Section Totals.
Variables (om p m1 m2 beta z : R).
Hypothesis Hom : om <> 0.
Hypothesis Hp : 0 < p.
Hypothesis Hz : 0 < z.
Let d := dM m1 m2.
Let e := energy z m1.
Lemma e_pos : 0 < e.
Proof. unfold e. rewrite energy_R. apply sqrt_lt_R0. nra. Qed.
Lemma nE_occ : / (exp (sqrt (m1 * m1 + z * z) * beta) - 1) / sqrt (m1 * m1 + z * z) = nE z m1 beta.
Proof. rewrite nE_gf. reflexivity. Qed.
Lemma den_eq w : den om p m1 m2 z w = (Sr om p d, 2 * e * w).
Proof. unfold den, e. rewrite energy_R. unfold Sr, d, dM. apply Ceq; simpl; ring. Qed.
Lemma den_CR w : w * w = om * om -> den om p m1 m2 z w = CR w p e d.
Proof. intros H. rewrite den_eq, CR_R. unfold Sr. now rewrite H. Qed.
Lemma plog_eq : plog om p m1 m2 z om = (LA z om p e d, PH z om p e d).
Proof. unfold plog. rewrite (den_CR om) by ring. apply CL_R; auto using e_pos. Qed.
Lemma plog_opp : plog om p m1 m2 z (- om) = (LA z om p e d, - PH z om p e d).
Proof. unfold plog. rewrite (den_CR (- om)) by ring. rewrite <- (PH_opp z om) by auto. rewrite <- (LA_opp z om). apply CL_R; auto using e_pos. lra. Qed.
Ltac fin := unfold lfac, tfac; rewrite ?plog_eq, ?plog_opp, ?den_eq; unfold e in *; rewrite ?energy_R.
Lemma total_0_eq : total_0 om p m1 m2 beta z = / (16 * (PI * PI) * p) / 2 * (nE z m1 beta * G0 z om p e d).
Proof. unfold total_0. rewrite nE_occ. fin. unfold G0. simpl. pose proof PI_neq0. field. split; [lra|auto]. Qed.
Lemma total_l_eq : total_l om p m1 m2 beta z = / (64 * (PI * PI) * (p * p * p) * (om * om + p * p)) / 2 * (nE z m1 beta * Gl z om p e d).
Proof.
  unfold total_l. rewrite nE_occ. assert (H : om * om + p * p <> 0) by nra. fin. unfold Gl, X2, Y2, W. fold (dM m1 m2). fold d. fold (Sr om p d).
  generalize (LA z om p (sqrt (m1 * m1 + z * z)) d), (PH z om p (sqrt (m1 * m1 + z * z)) d). intros a b. generalize (sqrt (m1 * m1 + z * z)), (Sr om p d). intros y s. simpl. pose proof PI_neq0. field. repeat split; [auto|lra|auto].
Qed.
Lemma total_t_eq : total_t om p m1 m2 beta z = - / (128 * (PI * PI) * (p * p * p)) / 2 * (nE z m1 beta * Gt z om p e d).
Proof.
  unfold total_t. rewrite nE_occ. fin. unfold Gt. fold (dM m1 m2). fold d. fold (Sr om p d).
  generalize (LA z om p (sqrt (m1 * m1 + z * z)) d), (PH z om p (sqrt (m1 * m1 + z * z)) d). intros a b. generalize (sqrt (m1 * m1 + z * z)), (Sr om p d). intros y s. simpl. pose proof PI_neq0. field. repeat split; [lra|auto].
Qed.
End Totals.

Section Bubbles.
Variables (q om p m1 m2 beta : R).
Hypothesis Hq : 0 < q.
Hypothesis Hom : om <> 0.
Hypothesis Hp : 0 < p.
Hypothesis Hm : m1 <> 0.
Hypothesis Hb : 0 < beta.
Ltac gen := repeat match goal with
  | |- context [LA q om p ?e ?d] => generalize (LA q om p e d); intros
  | |- context [PH q om p ?e ?d] => generalize (PH q om p e d); intros
  end.
Ltac npos := 
  pose proof (NP_pos q om p _ (dM m1 m2) Hom (energy_pos' q Hq m1)); pose proof (NM_pos q om p _ (dM m1 m2) Hom (energy_pos' q Hq m1));
  pose proof (NP_pos q om p _ (- dM m1 m2) Hom (energy_pos' q Hq m2)); pose proof (NM_pos q om p _ (- dM m1 m2) Hom (energy_pos' q Hq m2)).
Let c0 := / (16 * (PI * PI) * p).
Let cl := / (64 * (PI * PI) * (p * p * p) * (om * om + p * p)).
Let ct := - / (128 * (PI * PI) * (p * p * p)).
Lemma u_0 : mass_derivative_up_to (fun mu => F0 PI2 q om p (nE q mu beta) (energy q mu) (nE q m2 beta) (energy q m2) (dM mu m2)) m1
  (D0 PI2 q om p (nE q m1 beta) (energy q m1) (nE q m2 beta) (energy q m2) (dM m1 m2)) (total_0 om p m1 m2 beta) q.
Proof.
  pose proof PI_neq0 as Hpi. change PI2 with (PI * PI).
  apply (combine q m1 m2 beta c0 (fun z => G0 z om p) (G0q om p) (G0e om p) (G0d om p)); auto.
  - intros. apply G0_path; auto.
  - intros z Hz. apply total_0_eq; auto.
  - npos. unfold D0, GP, GM, G0d, G0q, LAd, LAq, c0. field. repeat split; auto; lra.
Qed.
Lemma u_l : mass_derivative_up_to (fun mu => Fl PI2 q om p (nE q mu beta) (energy q mu) (nE q m2 beta) (energy q m2) (dM mu m2)) m1
  (Dl PI2 q om p (nE q m1 beta) (energy q m1) (nE q m2 beta) (energy q m2) (dM m1 m2)) (total_l om p m1 m2 beta) q.
Proof.
  pose proof PI_neq0 as Hpi. assert (Hs : om * om + p * p <> 0) by nra. change PI2 with (PI * PI).
  apply (combine q m1 m2 beta cl (fun z => Gl z om p) (Glq om p) (Gle om p) (Gld om p)); auto.
  - intros. apply Gl_path; auto.
  - intros z Hz. apply total_l_eq; auto.
  - npos. unfold Dl, HP, HM, U4, Gld, Glq, LAd, LAq, PHd, PHq, cl. gen. unfold X2, Y2, W.
    generalize dependent (NP q om p (energy q m1) (dM m1 m2)). generalize dependent (NM q om p (energy q m1) (dM m1 m2)).
    generalize dependent (NP q om p (energy q m2) (- dM m1 m2)). generalize dependent (NM q om p (energy q m2) (- dM m1 m2)). intros.
    unfold Sr. field. repeat split; auto; lra.
Qed.
Lemma u_t : mass_derivative_up_to (fun mu => Ft PI2 q om p (nE q mu beta) (energy q mu) (nE q m2 beta) (energy q m2) (dM mu m2)) m1
  (Dt PI2 q om p (nE q m1 beta) (energy q m1) (nE q m2 beta) (energy q m2) (dM m1 m2)) (total_t om p m1 m2 beta) q.
Proof.
  pose proof PI_neq0 as Hpi. change PI2 with (PI * PI).
  apply (combine q m1 m2 beta ct (fun z => Gt z om p) (Gtq om p) (Gte om p) (Gtd om p)); auto.
  - intros. apply Gt_path; auto.
  - intros mu. unfold Ft, ct. field. repeat split; auto; lra.
  - intros z Hz. apply total_t_eq; auto.
  - npos. unfold Dt, G0, U1, Gtd, Gtq, LAd, LAq, PHd, PHq, ct. gen. unfold NP, NM, Sr in *. field. repeat split; auto; lra.
Qed.
End Bubbles.
