(** * The zero-momentum bubbles are the limits of the bubbles for p -> 0+ *)
From Coq Require Import Reals Lra Lia List.
From Coquelicot Require Import Coquelicot.
From Verif Require Import Num CField MCommon MThermal MThermalZM MThermalZP MPolar SpecInteg PCplx PDistr PVac PDress2 PCoh PCoh2 PLogs PMass PMassZ PMass2 PReal SpecLim PLim PLimC PZMom.
Import List ListNotations.
Open Scope R_scope.

(** Contributions of one branch (frequency, energy, mass difference). *)
Section Branch.
Variables (q : R) (om e d : C).
Notation r p := (CR om (RtoC p) e d).
Notation K p := (RtoC 2 * RtoC q * RtoC p)%C.
Notation L p := (CL (RtoC q) om (RtoC p) e d).
Notation ip p := (IP (RtoC q) om (RtoC p) e d).
Notation im p := (IM (RtoC q) om (RtoC p) e d).
Definition ba (p : R) : C := (om * r p + RtoC 2 * Ci * e * (RtoC p * RtoC p))%C.
Definition B0 (p : R) : C := (L p / RtoC p)%C.
Definition Bt (p : R) : C := (((r p * r p - K p * K p) * L p - RtoC 2 * K p * r p) / (RtoC p * RtoC p * RtoC p))%C.
Definition Bl (p : R) : C := ((L p * (ba p * ba p) - RtoC 2 * K p * (om * om) * r p) / (RtoC p * RtoC p * RtoC p))%C.
Definition BR (p : R) : C := ((r p * L p - RtoC 2 * K p) / (RtoC p * RtoC p * RtoC p))%C.
Definition BD (p : R) : C := ((ip p - im p) / RtoC p)%C.
Definition E1 (p : R) : C := ((- (ba p * ba p) * (ip p + im p) + RtoC 2 * (om * om) * r p) / (RtoC p * RtoC p))%C.
Definition E2 (p : R) : C := ((RtoC 2 * (RtoC q / RtoC p) * om * ba p * L p + (RtoC q / RtoC p) * (ba p * ba p) * (ip p - im p) - RtoC 4 * (om * om) * (RtoC q * RtoC q)) / (RtoC p * RtoC p))%C.
Notation r0 := (CR om (RtoC 0) e d).
Hypothesis Hr : r0 <> RtoC 0.
Let T1 := Tr om e d.
Let T2 := Trho q om e d Hr.
Let EL := L_eq q om e d.
Let A1 := ev_r om e d Hr.
Let A2 := ev_rp q om e d Hr.
Let A3 := ev_rm q om e d Hr.
Lemma B0_t : tendsC Z0 B0 (RtoC 4 * RtoC q / r0)%C. Proof. exact (b0_tends q om e _ _ _ _ Hr T1 T2 EL A1 A2 A3). Qed.
Lemma Bt_t : tendsC Z0 Bt (RtoC (- (32 / 3)) * (RtoC q * RtoC q * RtoC q) / r0)%C. Proof. exact (bt_tends q om e _ _ _ _ Hr T1 T2 EL A1 A2 A3). Qed.
Lemma Bl_t : tendsC Z0 Bl (RtoC 16 * RtoC q * Ci * e * om + RtoC (16 / 3) * (RtoC q * RtoC q * RtoC q) * (om * om) / r0)%C. Proof. exact (bl_tends q om e _ _ _ _ Hr T1 T2 EL A1 A2 A3). Qed.
Lemma BR_t : tendsC Z0 BR (RtoC (16 / 3) * (RtoC q * RtoC q * RtoC q) / (r0 * r0))%C. Proof. exact (brl_tends q om e _ _ _ _ Hr T1 T2 EL A1 A2 A3). Qed.
Lemma ip_t : tendsC Z0 (fun p => ip p) (/ r0)%C. Proof. exact (bip_tends q _ _ Hr T1). Qed.
Lemma im_t : tendsC Z0 (fun p => im p) (/ r0)%C. Proof. exact (bim_tends q _ _ Hr T1). Qed.
Lemma BD_t : tendsC Z0 BD (- (RtoC 4 * RtoC q / (r0 * r0)))%C. Proof. exact (bid_tends q om e _ (rho q om e d) _ Hr T1 A1 A2 A3). Qed.
Lemma E1_t : tendsC Z0 E1 (- (RtoC 8 * Ci * e * om) - RtoC 8 * (om * om) * (RtoC q * RtoC q) / r0)%C. Proof. exact (e1_tends q om e _ (rho q om e d) _ Hr T1 A1 A2 A3). Qed.
Lemma E2_t : tendsC Z0 E2 (- (RtoC (16 / 3)) * (RtoC q * RtoC q * RtoC q * RtoC q) * (om * om) / (r0 * r0))%C. Proof. exact (e2_tends q om e _ _ _ _ Hr T1 T2 EL A1 A2 A3). Qed.
End Branch.

Section MM.
Variables (q : R) (om m1 m2 : C) (beta : R).
Hypothesis Hom : om <> RtoC 0.
Let e1 : C := energy q m1.
Let e2 : C := energy q m2.
Let d : C := (m2 * m2 - m1 * m1)%C.
Let n1 : C := (bose_distribution_zero_chempot e1 beta / e1)%C.
Let n2 : C := (bose_distribution_zero_chempot e2 beta / e2)%C.
Notation S1 B p := (B q om e1 d p + B q (- om)%C e1 d p)%C.
Notation S2 B p := (B q om e2 (- d)%C p + B q (- om)%C e2 (- d)%C p)%C.
Notation rc := RtoC.
Ltac gen := repeat match goal with
  | |- context [CL ?a ?b ?c ?x ?y] => generalize (CL a b c x y); intros
  | |- context [IP ?a ?b ?c ?x ?y] => generalize (IP a b c x y); intros
  | |- context [IM ?a ?b ?c ?x ?y] => generalize (IM a b c x y); intros
  end.
Ltac prep p Hp := canon; fold d; fold e1 e2; assert (Hp' : rc p <> rc 0) by (apply RtoC_neq0; lra);
  pose proof (RtoC_neq0 _ PI2_neq) as Hpi;
  unfold B0, Bt, Bl, BR, BD, E1, E2, ba, n1, n2, Cdiv; gen; unfold CR;
  generalize dependent PI2; intros pi2 Hpi; pushRtoC;
  generalize (/ e1)%C; intros; generalize (/ e2)%C; intros; generalize (bose_distribution_zero_chempot e1 beta); intros; generalize (bose_distribution_zero_chempot e2 beta); intros;
  generalize e1; intros; generalize e2; intros; generalize d; intros.
Ltac sd := repeat split; auto; try (intros X; apply (f_equal fst) in X; simpl in X; lra).
Lemma f_0 p : 0 < p -> i_m_m_i q om p m1 m2 beta = (rc q / (rc 16 * rc PI2) * (n1 * S1 B0 p + n2 * S2 B0 p))%C.
Proof. intros Hp. prep p Hp. field. sd. Qed.
Lemma f_t p : 0 < p -> i_m_m_t_i q om p m1 m2 beta = (- (rc q / (rc 128 * rc PI2)) * (n1 * S1 Bt p + n2 * S2 Bt p))%C.
Proof. intros Hp. prep p Hp. field [Ci2]. sd. Qed.
Lemma f_l p : 0 < p -> (om * om + rc p * rc p)%C <> rc 0 -> i_m_m_l_i q om p m1 m2 beta = (rc q / (rc 64 * rc PI2 * (om * om + rc p * rc p)) * (n1 * S1 Bl p + n2 * S2 Bl p))%C.
Proof. intros Hp Hs. prep p Hp. field [Ci2]. sd. Qed.
Lemma f_d0 p : 0 < p -> d_i_m_m_i q om p m1 m2 beta =
  ((- (n1 * (S1 (fun q om e d p => IP q om p e d) p + S1 (fun q om e d p => IM q om p e d) p)) + rc q * (n2 * S2 BD p - n1 * S1 BD p)) / (rc 16 * rc PI2))%C.
Proof. intros Hp. prep p Hp. field [Ci2]. sd. Qed.
Lemma f_dt p : 0 < p -> d_i_m_m_t_i q om p m1 m2 beta = (rc q / (rc 8 * rc PI2) * (- (n1 * S1 B0 p) / rc 4 + (n1 * S1 BR p - n2 * S2 BR p) / rc 8))%C.
Proof. intros Hp. prep p Hp. field [Ci2]. sd. Qed.
Lemma f_dl p : 0 < p -> (om * om + rc p * rc p)%C <> rc 0 -> d_i_m_m_l_i q om p m1 m2 beta = ((n1 * S1 E1 p + n2 * S2 E2 p - n1 * S1 E2 p) / (rc 64 * rc PI2 * (om * om + rc p * rc p)))%C.
Proof. intros Hp Hs. prep p Hp. field [Ci2]. sd. Qed.
Definition regular0 (om e d : C) : Prop := CR om (RtoC 0) e d <> RtoC 0 /\ CR (- om) (RtoC 0) e d <> RtoC 0.
Hypothesis R1 : regular0 om e1 d.
Hypothesis R2 : regular0 om e2 (- d)%C.
Lemma ev_s : Z0 (fun p => (om * om + rc p * rc p)%C <> rc 0).
Proof.
  pose proof (tends_id_right 0) as Ti. apply (ev_neq (fun p => om * om + rc p * rc p)%C (om * om + rc 0 * rc 0)%C); [tendCf|].
  replace (om * om + rc 0 * rc 0)%C with (om * om)%C by ring. now apply Cmult_neq_0.
Qed.
Ltac zprep := unfold zp_i_m_m_t_i, zp_d_i_m_m_t_i, zp_i_m_m_i, zp_i_m_m_l_i, zp_d_i_m_m_i, zp_d_i_m_m_l_i; cbv zeta; rewrite ?zp_r_0_C; numcbn; fold d; fold e1 e2;
  destruct R1 as [A1 A2]; destruct R2 as [A3 A4]; revert A1 A2 A3 A4; unfold CR, n1, n2;
  pose proof (RtoC_neq0 _ PI2_neq) as Hpi; revert Hpi; 
  unfold Cdiv; pushRtoC; generalize PI2; intros pi2 Hpi;
  generalize (/ e1)%C; intros ?; generalize (/ e2)%C; intros ?; generalize (bose_distribution_zero_chempot e1 beta); intros ?; generalize (bose_distribution_zero_chempot e2 beta); intros ?;
  generalize e1; intros ?; generalize e2; intros ?; generalize d; intros ? A1 A2 A3 A4.
Ltac zsd := repeat split; auto; try (intros X; apply (f_equal fst) in X; simpl in X; lra);
  unfold ZtoC; try (let X := fresh in intros X; match goal with H : _ <> rc 0 |- False => apply H; etransitivity; [|exact X]; ring end).
Lemma s0 : (rc 64 * rc PI2 * (om * om + rc 0 * rc 0))%C <> rc 0.
Proof.
  apply Cmult_neq_0; [apply Cmult_neq_0; apply RtoC_neq0; [lra|apply PI2_neq]|]. replace (om * om + rc 0 * rc 0)%C with (om * om)%C by ring. now apply Cmult_neq_0.
Qed.
Ltac zlim := eapply tendsC_eq; [|tendCf; try exact s0; try solve [apply Cmult_neq_0; apply RtoC_neq0; [lra|apply PI2_neq]]; try solve [zsd]].
Ltac posit B := pose proof (B q om e1 d (proj1 R1)); pose proof (B q (- om)%C e1 d (proj2 R1)); pose proof (B q om e2 (- d)%C (proj1 R2)); pose proof (B q (- om)%C e2 (- d)%C (proj2 R2)).
Lemma l_0 : tendsC Z0 (fun p => i_m_m_i q om p m1 m2 beta) (zp_i_m_m_i q om m1 m2 beta).
Proof.
  apply (tendsC_ext (fun p => rc q / (rc 16 * rc PI2) * (n1 * S1 B0 p + n2 * S2 B0 p))%C).
  { generalize ev_p. apply filter_imp. intros p Hp. symmetry. now apply f_0. }
  posit B0_t. zlim. zprep. field. zsd.
Qed.
Lemma l_t : tendsC Z0 (fun p => i_m_m_t_i q om p m1 m2 beta) (zp_i_m_m_t_i q om m1 m2 beta).
Proof.
  apply (tendsC_ext (fun p => - (rc q / (rc 128 * rc PI2)) * (n1 * S1 Bt p + n2 * S2 Bt p))%C).
  { generalize ev_p. apply filter_imp. intros p Hp. symmetry. now apply f_t. }
  posit Bt_t. zlim. unfold zp_i_m_m_t_i. zprep. field. zsd.
Qed.
Lemma l_l : tendsC Z0 (fun p => i_m_m_l_i q om p m1 m2 beta) (zp_i_m_m_l_i q om m1 m2 beta).
Proof.
  apply (tendsC_ext (fun p => rc q / (rc 64 * rc PI2 * (om * om + rc p * rc p)) * (n1 * S1 Bl p + n2 * S2 Bl p))%C).
  { generalize (filter_and _ _ ev_p ev_s). apply filter_imp. intros p [Hp Hs]. symmetry. now apply f_l. }
  posit Bl_t. pose proof (tends_id_right 0). zlim. zprep. field. zsd.
Qed.
Lemma l_d0 : tendsC Z0 (fun p => d_i_m_m_i q om p m1 m2 beta) (zp_d_i_m_m_i q om m1 m2 beta).
Proof.
  apply (tendsC_ext (fun p => (- (n1 * (S1 (fun q om e d p => IP q om p e d) p + S1 (fun q om e d p => IM q om p e d) p)) + rc q * (n2 * S2 BD p - n1 * S1 BD p)) / (rc 16 * rc PI2))%C).
  { generalize ev_p. apply filter_imp. intros p Hp. symmetry. now apply f_d0. }
  posit BD_t. posit ip_t. posit im_t. zlim. zprep. field. zsd.
Qed.
Lemma l_dt : tendsC Z0 (fun p => d_i_m_m_t_i q om p m1 m2 beta) (zp_d_i_m_m_t_i q om m1 m2 beta).
Proof.
  apply (tendsC_ext (fun p => rc q / (rc 8 * rc PI2) * (- (n1 * S1 B0 p) / rc 4 + (n1 * S1 BR p - n2 * S2 BR p) / rc 8))%C).
  { generalize ev_p. apply filter_imp. intros p Hp. symmetry. now apply f_dt. }
  posit B0_t. posit BR_t. zlim. unfold zp_d_i_m_m_t_i. zprep. field. zsd.
Qed.
Lemma l_dl : tendsC Z0 (fun p => d_i_m_m_l_i q om p m1 m2 beta) (zp_d_i_m_m_l_i q om m1 m2 beta).
Proof.
  apply (tendsC_ext (fun p => (n1 * S1 E1 p + n2 * S2 E2 p - n1 * S1 E2 p) / (rc 64 * rc PI2 * (om * om + rc p * rc p)))%C).
  { generalize (filter_and _ _ ev_p ev_s). apply filter_imp. intros p [Hp Hs]. symmetry. now apply f_dl. }
  posit E1_t. posit E2_t. pose proof (tends_id_right 0). zlim. zprep. field. zsd.
Qed.
End MM.
