(** * The total derivatives of the bubbles have no boundary terms *)
From Coq Require Import Reals Lra Lia List.
From Coquelicot Require Import Coquelicot.
From Verif Require Import Num CField MCommon MThermal SpecDeriv SpecInteg PCplx PVac PDistr PMass2 PReal PForms PForms2 SpecLim PLim PLogs PMass PDeriv PDeriv2.
Import List ListNotations.
Open Scope R_scope.

Definition XX (q om p e d : R) : R := Sr om p d * Sr om p d + (2 * e * om) * (2 * e * om) - (2 * q * p) * (2 * q * p).
Definition YY (q om p e : R) : R := 2 * (2 * q * p) * (2 * e * om).
Lemma atan_flip x y : 0 < x -> 0 < y -> atan (x / y) = PI / 2 - atan (y / x).
Proof. intros Hx Hy. replace (x / y) with (/ (y / x)) by (field; split; lra). apply atan_inv. now apply Rdiv_lt_0_compat. Qed.
Lemma PH_atan q om p e d : 0 < q -> 0 < p -> 0 < e -> om <> 0 -> 0 < XX q om p e d -> PH q om p e d = - atan (YY q om p e / XX q om p e d).
Proof.
  intros Hq Hp He Hom HX. unfold PH, PT. fold (XX q om p e d). fold (YY q om p e).
  destruct (Rlt_dec 0 om) as [H|H].
  - rewrite atan_flip; auto. { ring. } unfold YY. repeat apply Rmult_lt_0_compat; lra.
  - assert (HY : 0 < - YY q om p e) by (unfold YY; replace (- (2 * (2 * q * p) * (2 * e * om))) with (2 * (2 * q * p) * (2 * e * - om)) by ring; repeat apply Rmult_lt_0_compat; lra).
    replace (XX q om p e d / YY q om p e) with (- (XX q om p e d / - YY q om p e)) by (field; lra).
    rewrite atan_opp, atan_flip by auto. replace (- YY q om p e / XX q om p e d) with (- (YY q om p e / XX q om p e d)) by (field; lra). rewrite atan_opp. lra.
Qed.

(** Both parts of the logarithm vanish where its argument becomes 1. *)
Lemma log_parts_0 (F : (R -> Prop) -> Prop) {FF : Filter F} (fq fp fe : R -> R) om d q0 p0 e0 :
  om <> 0 -> 0 < e0 -> q0 * p0 = 0 -> F (fun x => 0 < fq x) -> F (fun x => 0 < fp x) -> F (fun x => 0 < fe x) ->
  tends F fq q0 -> tends F fp p0 -> tends F fe e0 ->
  tends F (fun x => LA (fq x) om (fp x) (fe x) d) 0 /\ tends F (fun x => PH (fq x) om (fp x) (fe x) d) 0.
Proof.
  intros Hom He0 H0 Pq Pp Pe Tq Tp Te.
  pose proof (NP_pos q0 om p0 e0 d Hom He0) as HP. pose proof (NM_pos q0 om p0 e0 d Hom He0) as HM.
  assert (E : NP q0 om p0 e0 d = NM q0 om p0 e0 d) by (unfold NP, NM; rewrite !Rmult_assoc, H0; ring).
  assert (TS : tends F (fun x => Sr om (fp x) d) (Sr om p0 d)) by (unfold Sr; tendf).
  split.
  - apply (tends_eq _ ((ln (NP q0 om p0 e0 d) - ln (NM q0 om p0 e0 d)) / 2)); [rewrite E; field|]. unfold LA.
    assert (TP : tends F (fun x => NP (fq x) om (fp x) (fe x) d) (NP q0 om p0 e0 d)) by (unfold NP; tendf).
    assert (TM : tends F (fun x => NM (fq x) om (fp x) (fe x) d) (NM q0 om p0 e0 d)) by (unfold NM; tendf).
    apply (tends_comp ln _ _ (continuous_ln _ HP)) in TP. apply (tends_comp ln _ _ (continuous_ln _ HM)) in TM. tendf. lra.
  - assert (EX : XX q0 om p0 e0 d = NP q0 om p0 e0 d) by (unfold XX, NP; rewrite !Rmult_assoc, H0; ring).
    assert (TX : tends F (fun x => XX (fq x) om (fp x) (fe x) d) (XX q0 om p0 e0 d))
      by (unfold XX; tendf).
    assert (PX : F (fun x => 0 < XX (fq x) om (fp x) (fe x) d)).
    { assert (H : 0 < XX q0 om p0 e0 d) by lra. specialize (TX (fun y => 0 < y)). apply TX. exists (mkposreal _ H). intros y Hy. apply Rabs_def2 in Hy. unfold minus, plus, opp in Hy. simpl in Hy. lra. }
    apply (tends_ext (fun x => - atan (YY (fq x) om (fp x) (fe x) / XX (fq x) om (fp x) (fe x) d))).
    { generalize (filter_and _ _ PX (filter_and _ _ Pq (filter_and _ _ Pp Pe))). apply filter_imp. intros x (A1 & A2 & A3 & A4). symmetry. apply PH_atan; auto. }
    apply (tends_eq _ (- atan (YY q0 om p0 e0 / XX q0 om p0 e0 d))).
    { replace (YY q0 om p0 e0) with 0. { unfold Rdiv. rewrite Rmult_0_l, atan_0. ring. } unfold YY. rewrite !(Rmult_assoc 2 q0), H0. ring. }
    apply tends_opp. apply (tends_comp atan). { apply continuity_pt_filterlim. apply derivable_continuous_pt, derivable_pt_atan. }
    unfold YY. tendf. lra.
Qed.

Section Boundary.
Variables (om p m1 m2 beta : R).
Hypothesis Hom : om <> 0.
Hypothesis Hp : 0 < p.
Hypothesis Hm : m1 <> 0.
Hypothesis Hb : 0 < beta.
Let d := dM m1 m2.
Let ez (z : R) := energy z m1.

Lemma tend_energy : tends (at_right 0) ez (sqrt (m1 * m1 + 0 * 0)).
Proof.
  apply (tends_ext (fun z => sqrt (m1 * m1 + z * z))); [apply filter_forall; intros z; symmetry; apply energy_R|].
  apply (tends_comp sqrt). { apply continuous_sqrt. }
  pose proof (tends_id_right 0). tendf.
Qed.
Lemma zero_boundary cc (G : R -> R) : tends (at_right 0) G 0 -> tends (at_right 0) (fun z => cc * (nE z m1 beta * G z)) 0.
Proof.
  intros HG. apply (tends_ext (fun z => cc * (gf beta (m1 * m1 + z * z) * G z))); [apply filter_forall; intros z; now rewrite nE_gf|].
  apply (tends_eq _ (cc * (gf beta (m1 * m1 + 0 * 0) * 0))); [ring|]. pose proof (tends_id_right 0).
  apply tends_mult; [apply tends_const|apply tends_mult; [|exact HG]]. apply (tends_comp (gf beta)).
  - apply (ex_derive_continuous (K := R_AbsRing) (V := R_NormedModule)). eexists. apply gf_d; auto. assert (0 < m1 * m1) by nra. lra.
  - tendf.
Qed.
Lemma logs_0 : tends (at_right 0) (fun z => LA z om p (ez z) d) 0 /\ tends (at_right 0) (fun z => PH z om p (ez z) d) 0.
Proof.
  apply (log_parts_0 (at_right 0) (fun z => z) (fun _ => p) ez om d 0 p (sqrt (m1 * m1 + 0 * 0))); auto.
  - apply sqrt_lt_R0. nra.
  - ring.
  - apply (ev_right _ 0 1); intros; lra.
  - apply filter_forall; auto.
  - apply (ev_right _ 0 1); [lra|]. intros z Hz. unfold ez. rewrite energy_R. apply sqrt_lt_R0. nra.
  - apply tends_id_right.
  - apply tends_const.
  - apply tend_energy.
Qed.
Lemma Gs_0 : tends (at_right 0) (fun z => G0 z om p (ez z) d) 0 /\ tends (at_right 0) (fun z => Gl z om p (ez z) d) 0 /\ tends (at_right 0) (fun z => Gt z om p (ez z) d) 0.
Proof.
  destruct logs_0 as [TL TP]. pose proof (tends_id_right 0) as Tz. pose proof tend_energy as Te. unfold G0, Gl, Gt, X2, Y2, W. set (e0 := sqrt (m1 * m1 + 0 * 0)) in *.
  repeat split; (eapply tends_eq; [|tendf]); ring.
Qed.

Lemma LA_bound : exists K, 0 <= K /\ forall z, 1 <= z -> Rabs (LA z om p (ez z) d) <= K.
Proof.
  set (a := 4 * (om * om)). set (S := Sr om p d). set (b := (Rabs S + 2 * p) * (Rabs S + 2 * p) + 4 * (m1 * m1 + 1) * (om * om)).
  assert (Ha : 0 < a) by (unfold a; nra). exists (Rabs (ln b) + Rabs (ln a)). split. { pose proof (Rabs_pos (ln b)). pose proof (Rabs_pos (ln a)). lra. }
  intros z Hz. assert (Ee : ez z * ez z = m1 * m1 + z * z) by (unfold ez; rewrite energy_R; apply sqrt_sqrt; nra).
  assert (Hab : a <= b). { unfold a, b. assert (0 <= m1 * m1) by nra. assert (0 < om * om) by nra. pose proof (Rle_0_sqr (Rabs S + 2 * p)) as Hq. unfold Rsqr in Hq. nra. }
  assert (Bd : forall N, (exists s, Rabs s <= Rabs S + 2 * z * p /\ N = s * s + 4 * (m1 * m1 + z * z) * (om * om)) -> a * (z * z) <= N <= b * (z * z)).
  { intros N (s & Hs & ->). assert (0 <= m1 * m1) by nra. assert (0 < om * om) by nra. split.
    - unfold a. pose proof (Rle_0_sqr s) as Q. unfold Rsqr in Q. nra.
    - unfold b. assert (Hs2 : Rabs s <= (Rabs S + 2 * p) * z). { pose proof (Rabs_pos S). nra. }
      assert (s * s <= (Rabs S + 2 * p) * z * ((Rabs S + 2 * p) * z)). { rewrite <- (Rabs_pos_eq (s * s)) by nra. rewrite Rabs_mult. pose proof (Rabs_pos s). nra. }
      assert (Hzz : 1 <= z * z) by nra. assert (m1 * m1 + z * z <= (m1 * m1 + 1) * (z * z)) by nra.
      assert (4 * (m1 * m1 + z * z) * (om * om) <= 4 * ((m1 * m1 + 1) * (z * z)) * (om * om)) by (apply Rmult_le_compat_r; lra). lra. }
  assert (BP : a * (z * z) <= NP z om p (ez z) d <= b * (z * z)).
  { apply Bd. exists (S + 2 * z * p). split. { eapply Rle_trans; [apply Rabs_triang|]. rewrite (Rabs_pos_eq (2 * z * p)); nra. } unfold NP. fold S. rewrite <- Ee. ring. }
  assert (BM : a * (z * z) <= NM z om p (ez z) d <= b * (z * z)).
  { apply Bd. exists (S - 2 * z * p). split. { unfold Rminus. eapply Rle_trans; [apply Rabs_triang|]. rewrite Rabs_Ropp, (Rabs_pos_eq (2 * z * p)); nra. } unfold NM. fold S. rewrite <- Ee. ring. }
  assert (Pz : 0 < z * z) by nra. assert (Pa : 0 < a * (z * z)) by nra.
  assert (L : forall N, a * (z * z) <= N <= b * (z * z) -> ln a + ln (z * z) <= ln N <= ln b + ln (z * z)).
  { intros N [N1 N2]. rewrite <- !ln_mult by lra. split; apply ln_le; lra. }
  apply L in BP. apply L in BM. unfold LA. pose proof (Rle_abs (ln b)). pose proof (Rle_abs (- ln a)) as Q. rewrite Rabs_Ropp in Q. apply Rabs_le. pose proof (Rabs_pos (ln a)). pose proof (Rabs_pos (ln b)). split; lra.
Qed.
Lemma infty_boundary cc (G : R -> R) K : (forall z, 1 <= z -> Rabs (G z) <= K * (z * z * z)) -> tends INF (fun z => cc * (nE z m1 beta * G z)) 0.
Proof.
  intros HG. apply (squeeze_inv _ (Rabs cc * (256 / (beta * beta * (beta * beta)) * K))). intros z Hz. specialize (HG z Hz).
  rewrite nE_gf. set (x := m1 * m1 + z * z). assert (Hx : 1 <= x) by (unfold x; nra).
  pose proof (gf_bound beta Hb 3 x ltac:(lia) Hx) as Bg. pose proof (B0 beta Hb) as HB. set (B := 256 / (beta * beta * (beta * beta))) in *.
  assert (Hs : z <= sqrt x). { rewrite <- (sqrt_square z) by lra. apply sqrt_le_1; unfold x; nra. }
  rewrite !Rabs_mult. set (g := Rabs (gf beta x)) in *. pose proof (Rabs_pos (gf beta x)) as Hg. fold g in Hg. pose proof (Rabs_pos (G z)). pose proof (Rabs_pos cc).
  assert (Z4 : g * (z * z * z * z) <= B). { eapply Rle_trans; [|exact Bg]. apply Rmult_le_compat_l; auto. replace (sqrt x ^ 3 * sqrt x) with (sqrt x * sqrt x * (sqrt x * sqrt x)) by ring. assert (z * z <= sqrt x * sqrt x) by nra. nra. }
  replace (Rabs cc * (B * K) / z) with (Rabs cc * (B * K / z)) by (field; lra). apply Rmult_le_compat_l; auto.
  assert (HK : 0 <= K). { assert (0 < z * z * z) by (repeat apply Rmult_lt_0_compat; lra). nra. }
  apply Rle_trans with (g * (K * (z * z * z))); [apply Rmult_le_compat_l; auto|].
  replace (g * (K * (z * z * z))) with (g * (z * z * z * z) * (K / z)) by (field; lra). replace (B * K / z) with (B * (K / z)) by (field; lra).
  apply Rmult_le_compat_r; auto. apply Rmult_le_pos; auto. left. apply Rinv_0_lt_compat. lra.
Qed.

(** Polynomial growth. *)
Definition gr (k : nat) (f : R -> R) : Prop := exists K, forall z, 1 <= z -> Rabs (f z) <= K * z ^ k.
Lemma gr_weak j k f : (j <= k)%nat -> gr j f -> gr k f.
Proof.
  intros H [K HK]. exists K. intros z Hz. specialize (HK z Hz). pose proof (Rabs_pos (f z)). assert (P : 0 < z ^ j) by (apply pow_lt; lra). assert (HK0 : 0 <= K) by nra.
  eapply Rle_trans; [exact HK|]. apply Rmult_le_compat_l; auto. now apply Rle_pow.
Qed.
Lemma gr_const c : gr 0 (fun _ => c).
Proof. exists (Rabs c). intros. simpl. lra. Qed.
Lemma gr_id : gr 1 (fun z => z).
Proof. exists 1. intros z Hz. rewrite Rabs_pos_eq; simpl; lra. Qed.
Lemma gr_mult j k f g : gr j f -> gr k g -> gr (j + k) (fun z => f z * g z).
Proof.
  intros [K HK] [L HL]. exists (K * L). intros z Hz. specialize (HK z Hz). specialize (HL z Hz). rewrite Rabs_mult, pow_add.
  replace (K * L * (z ^ j * z ^ k)) with (K * z ^ j * (L * z ^ k)) by ring. apply Rmult_le_compat; auto using Rabs_pos.
Qed.
Lemma gr_plus j k f g : gr j f -> gr k g -> gr (Nat.max j k) (fun z => f z + g z).
Proof.
  intros Hf Hg. apply (gr_weak j (Nat.max j k)) in Hf; [|lia]. apply (gr_weak k (Nat.max j k)) in Hg; [|lia]. destruct Hf as [K HK], Hg as [L HL].
  exists (K + L). intros z Hz. specialize (HK z Hz). specialize (HL z Hz). eapply Rle_trans; [apply Rabs_triang|]. lra.
Qed.
Lemma gr_opp k f : gr k f -> gr k (fun z => - f z).
Proof. intros [K HK]. exists K. intros z Hz. rewrite Rabs_Ropp. auto. Qed.
Lemma gr_minus j k f g : gr j f -> gr k g -> gr (Nat.max j k) (fun z => f z - g z).
Proof. intros Hf Hg. apply (gr_plus j k f (fun z => - g z)); auto. now apply gr_opp. Qed.
Ltac grf :=
  lazymatch goal with
  | |- gr _ (fun _ => ?c) => apply (gr_const c)
  | |- gr _ (fun x => x) => apply gr_id
  | |- gr _ (fun x => (@?a x + @?b x)) => eapply (gr_plus _ _ a b); [grf|grf]
  | |- gr _ (fun x => (@?a x - @?b x)) => eapply (gr_minus _ _ a b); [grf|grf]
  | |- gr _ (fun x => (@?a x * @?b x)) => eapply (gr_mult _ _ a b); [grf|grf]
  | |- _ => eassumption
  end.
Lemma gr_ez : gr 1 ez.
Proof.
  exists (Rabs m1 + 1). intros z Hz. unfold ez. rewrite energy_R. rewrite Rabs_pos_eq by apply sqrt_pos. pose proof (Rabs_pos m1) as P.
  rewrite <- (sqrt_square ((Rabs m1 + 1) * z ^ 1)) by (simpl; nra). assert (E : m1 * m1 = Rabs m1 * Rabs m1) by (rewrite <- Rabs_mult, Rabs_pos_eq; nra).
  apply sqrt_le_1. { nra. } { simpl. nra. } rewrite E. simpl. assert (0 <= Rabs m1 * (z - 1)) by nra. assert (Rabs m1 <= Rabs m1 * z) by nra. nra.
Qed.
Lemma gr_Gs : gr 3 (fun z => G0 z om p (ez z) d) /\ gr 3 (fun z => Gl z om p (ez z) d) /\ gr 3 (fun z => Gt z om p (ez z) d).
Proof.
  assert (HL : gr 0 (fun z => LA z om p (ez z) d)). { destruct LA_bound as (K & _ & HK). exists K. intros z Hz. simpl. rewrite Rmult_1_r. auto. }
  assert (HP : gr 0 (fun z => PH z om p (ez z) d)). { exists PI. intros z Hz. simpl. rewrite Rmult_1_r. apply PH_bound; auto. }
  pose proof gr_ez. unfold G0, Gl, Gt, X2, Y2, W. repeat split; (eapply gr_weak; [|grf]); simpl; lia.
Qed.
Lemma gr_inf cc (G : R -> R) : gr 3 G -> tends INF (fun z => cc * (nE z m1 beta * G z)) 0.
Proof. intros [K HK]. apply (infty_boundary cc G K). intros z Hz. specialize (HK z Hz). simpl in HK. replace (z * z * z) with (z * (z * (z * 1))) by ring. exact HK. Qed.

Lemma boundary T cc G : (forall z, 0 < z -> T z = cc * (nE z m1 beta * G z)) -> tends (at_right 0) G 0 -> gr 3 G -> no_boundary_term T.
Proof.
  intros HT H0 HI. split.
  - apply (tends_ext (fun z => cc * (nE z m1 beta * G z))); [|now apply zero_boundary].
    apply (ev_right _ 0 1); [lra|]. intros z Hz. symmetry. apply HT. lra.
  - apply (tends_ext (fun z => cc * (nE z m1 beta * G z))); [|now apply gr_inf].
    apply (ev_infty _ 0). intros z Hz. symmetry. now apply HT.
Qed.
Lemma nb_totals : no_boundary_term (total_0 om p m1 m2 beta) /\ no_boundary_term (total_l om p m1 m2 beta) /\ no_boundary_term (total_t om p m1 m2 beta).
Proof.
  destruct Gs_0 as (Z0 & Zl & Zt). destruct gr_Gs as (I0 & Il & It).
  exact (conj (boundary _ _ _ (fun z Hz => total_0_eq om p m1 m2 beta z Hom Hp Hz) Z0 I0)
        (conj (boundary _ _ _ (fun z Hz => total_l_eq om p m1 m2 beta z Hom Hp Hz) Zl Il)
              (boundary _ _ _ (fun z Hz => total_t_eq om p m1 m2 beta z Hom Hp Hz) Zt It))).
Qed.
End Boundary.

(** ** The bubbles of the code *)
Lemma Cmd (f : R -> C) (F : R -> R) m dC D T q : (forall mu, f mu = RtoC (F mu)) -> dC = RtoC D -> mass_derivative_up_to F m D T q -> Cmass_derivative_up_to f m dC T q.
Proof.
  intros Hf -> (T' & HT & HD). split.
  - exists T'. split; auto. apply (is_derive_ext (fun x => F (sqrt x))); [intros; now rewrite Hf|exact HD].
  - apply (is_derive_ext (fun _ => 0)); [intros; now rewrite Hf|]. apply (is_derive_const (K := R_AbsRing) (V := R_NormedModule)).
Qed.
Section Code.
Variables (q om p beta : R).
Hypothesis Hq : 0 < q.
Hypothesis Hom : om <> 0.
Hypothesis Hp : 0 < p.
Hypothesis Hb : 0 < beta.
Lemma code_mm m1 m2 : m1 <> 0 ->
  Cmass_derivative_up_to (fun mu => i_m_m_i q om p mu m2 beta) m1 (d_i_m_m_i q om p m1 m2 beta) (total_0 om p m1 m2 beta) q /\
  Cmass_derivative_up_to (fun mu => i_m_m_l_i q om p mu m2 beta) m1 (d_i_m_m_l_i q om p m1 m2 beta) (total_l om p m1 m2 beta) q /\
  Cmass_derivative_up_to (fun mu => i_m_m_t_i q om p mu m2 beta) m1 (d_i_m_m_t_i q om p m1 m2 beta) (total_t om p m1 m2 beta) q.
Proof.
  intros Hm. split; [|split].
  - eapply Cmd; [intros mu; exact (form_0 q om p mu m2 beta Hq Hom Hp)|exact (form_d0 q om p m1 m2 beta Hq Hom Hp)|exact (u_0 q om p m1 m2 beta Hq Hom Hp Hm Hb)].
  - eapply Cmd; [intros mu; exact (form_l q om p mu m2 beta Hq Hom Hp)|exact (form_dl q om p m1 m2 beta Hq Hom Hp)|exact (u_l q om p m1 m2 beta Hq Hom Hp Hm Hb)].
  - eapply Cmd; [intros mu; exact (form_t q om p mu m2 beta Hq Hom Hp)|exact (form_dt q om p m1 m2 beta Hq Hom Hp)|exact (u_t q om p m1 m2 beta Hq Hom Hp Hm Hb)].
Qed.
End Code.
Section Code2.
Variables (q om p beta : R).
Hypothesis Hq : 0 < q.
Hypothesis Hom : om <> 0.
Hypothesis Hp : 0 < p.
Hypothesis Hb : 0 < beta.
Lemma code_m0 m : m <> 0 ->
  Cmass_derivative_up_to (fun mu => i_m_0_i q om p mu beta) m (d_i_m_0_i q om p m beta) (total_0 om p m 0 beta) q /\
  Cmass_derivative_up_to (fun mu => i_m_0_l_i q om p mu beta) m (d_i_m_0_l_i q om p m beta) (total_l om p m 0 beta) q /\
  Cmass_derivative_up_to (fun mu => i_m_0_t_i q om p mu beta) m (d_i_m_0_t_i q om p m beta) (total_t om p m 0 beta) q.
Proof.
  intros Hm. assert (E : forall mu : R, bubbles_mm q om p mu 0 beta = bubbles_m0 q om p mu beta).
  { intros mu. exact (proj1 (proj2 (special_R q om mu p beta Hq (Rgt_not_eq _ _ Hp)))). }
  destruct (code_mm q om p beta Hq Hom Hp Hb m 0 Hm) as (A & B & C0).
  assert (X : forall f g T dC dC', (forall mu : R, f mu = g mu) -> dC = dC' -> Cmass_derivative_up_to f m dC T q -> Cmass_derivative_up_to g m dC' T q).
  { intros f g T dC dC' Hf <- ((T' & HT & HD) & HI). split.
    - exists T'. split; auto. apply (is_derive_ext (fun x => fst (f (sqrt x)))); [intros; now rewrite Hf|exact HD].
    - apply (is_derive_ext (fun x => snd (f (sqrt x)))); [intros; now rewrite Hf|exact HI]. }
  assert (N : forall k (mu : R), nth k (bubbles_mm q om p mu 0 beta) (RtoC 0) = nth k (bubbles_m0 q om p mu beta) (RtoC 0)) by (intros; now rewrite E).
  exact (conj (X _ _ _ _ _ (N 0%nat) (N 3%nat m) A) (conj (X _ _ _ _ _ (N 1%nat) (N 4%nat m) B) (X _ _ _ _ _ (N 2%nat) (N 5%nat m) C0))).
Qed.
Lemma code_same m : m <> 0 ->
  Cmass_derivative_up_to (fun mu => i_m_m_i q om p mu m beta) m (d_i_m_m_i_same_mass q om p m beta) (total_0 om p m m beta) q /\
  Cmass_derivative_up_to (fun mu => i_m_m_l_i q om p mu m beta) m (d_i_m_m_l_i_same_mass q om p m beta) (total_l om p m m beta) q /\
  Cmass_derivative_up_to (fun mu => i_m_m_t_i q om p mu m beta) m (d_i_m_m_t_i_same_mass q om p m beta) (total_t om p m m beta) q.
Proof.
  intros Hm. assert (E := proj1 (special_R q om m p beta Hq (Rgt_not_eq _ _ Hp))).
  assert (N : forall k, nth k (bubbles_mm q om p m m beta) (RtoC 0) = nth k (bubbles_same q om p m beta) (RtoC 0)) by (intros; now rewrite E).
  pose proof (N 3%nat) as N3. pose proof (N 4%nat) as N4. pose proof (N 5%nat) as N5. cbn [nth bubbles_mm bubbles_same] in N3, N4, N5.
  rewrite <- N3, <- N4, <- N5. exact (code_mm q om p beta Hq Hom Hp Hb m m Hm).
Qed.
End Code2.
