(** * The gluon-pole program: all rows; examples *)
From Coq Require Import Reals Psatz List.
From Coquelicot Require Import Coquelicot.
From Verif Require Import Num CField MCommon MConsts MUtils MVacuum MDress MPoles SpecConsts SpecInteg SpecDress SpecPoles PCplx PVac PVac2 PUtils PSym PSymC PSymD PSymE PPoles PDistr.
Import List ListNotations.
Open Scope R_scope.
#[local] Opaque MAX_ITER compute_residue TOL MG.

Lemma TOL_acc : TOL = accuracy.
Proof. change TOL with (/ 10 ^ 12). unfold accuracy. lra. Qed.
Lemma MG_vac : MG = m_vacuum.
Proof. reflexivity. Qed.

Lemma zp_four_fold J g m beta f0 : commutes_with_conj J -> m <> 0 -> four_fold (fun w => zp_ym_gluon_dressing_t_inv J g w m beta f0).
Proof.
  intros HJ Hm. split; intros w.
  - apply zp_ym_gluon_dressing_t_inv_ev.
  - intros Hw. now apply zp_ym_gluon_dressing_t_inv_cj.
Qed.

Lemma inv_inv1 (x : C) : (/ (RtoC 1 / x))%C = x.
Proof.
  destruct (Ceq_dec x (RtoC 0)) as [->|Nx].
  - unfold Cdiv. rewrite Cinv_0. replace (RtoC 1 * RtoC 0)%C with (RtoC 0) by ring. apply Cinv_0.
  - field. auto.
Qed.
Lemma compute_residue_slope f z : compute_residue (fun w => RtoC 1 / f w)%C z = inverse_slope f z.
Proof.
  change (compute_residue (fun w : C => (RtoC 1 / f w)%C) z) with (compute_residue_with_eps (fun w => RtoC 1 / f w)%C z (/ 10 ^ 12)).
  unfold compute_residue_with_eps, inverse_slope. numcbn. rewrite !inv_inv1. replace (/ 10 ^ 12) with accuracy by (unfold accuracy; lra).
  rewrite RtoC_mult. unfold Cdiv. ring.
Qed.

Lemma thermal_found J g m t f0 p z : commutes_with_conj J -> m <> 0 ->
  find_thermal_pole (fun w => zp_ym_gluon_dressing_t_inv J g w m (1 / t) f0) = Found (p, z) -> thermal_row J g (t, m, f0) (t, (p, z)).
Proof.
  intros HJ Hm H. pose proof (zp_four_fold J g m (1 / t) f0 HJ Hm) as S. apply find_thermal_pole_found in H as (r & H1 & _ & _ & _ & E & _ & _ & Hz).
  unfold thermal_row. cbv zeta. split; auto. replace (/ t) with (1 / t) by (unfold Rdiv; ring). rewrite TOL_acc in H1.
  assert (Kz : z = im_over_re (Cconj (RtoC 2 * inverse_slope (fun w => zp_ym_gluon_dressing_t_inv J g w m (1 / t) f0) (Cconj (Ci * p)%C) / Cconj (Ci * p)%C)%C)).
  { rewrite E, conj_conj, Hz. unfold thermal_residue. rewrite compute_residue_slope. unfold im_over_re. now rewrite (Cmult_comm (RtoC 2)). }
  clear Hz.
  pose proof (symmetric_mod _ r S) as (A & B & D). cbn beta in A, B, D.
  replace (Ci * - p)%C with (- (Ci * p))%C by ring. rewrite E.
  replace (Ci * Cconj p)%C with (- r)%C.
  - rewrite A, B, D. rewrite E in Kz. auto.
  - replace r with (Cconj (Ci * p)) by (rewrite E; apply conj_conj). rewrite conj_mult.
    replace (Cconj Ci) with (- Ci)%C by (unfold Ci, Cconj, Copp; cbn; f_equal; ring). ring.
Qed.

(** The loop, for arbitrary parameters. *)
Lemma thermal_poles_spec J g : commutes_with_conj J -> forall l res, Forall (fun x : R * (R * R) => fst (snd x) <> 0) l ->
  thermal_poles J g l res = NoRoot \/
  exists vs, thermal_poles J g l res = Found (res ++ vs) /\
    Forall2 (fun x v => thermal_row J g (fst x, fst (snd x), snd (snd x) + f0_ym) (fst x, v)) l vs.
Proof.
  intros HJ. induction l as [|[t [m d]] l IH]; intros res Hl.
  - right. exists []. cbn. rewrite app_nil_r. auto.
  - inversion Hl as [|? ? Hm Hl']; subst. cbn [fst snd] in Hm.
    cbn [thermal_poles]. pose proof (zp_four_fold J g m (1 / t) (d + f0_ym) HJ Hm) as S.
    destruct (find_thermal_pole_symmetric _ S) as [E|(p & z & E)]; rewrite E; [now left|].
    destruct (IH (res ++ [(p, z)]) Hl') as [->|(vs & -> & F)]; [now left|]. right. exists ((p, z) :: vs).
    rewrite <- app_assoc. split; [reflexivity|]. constructor; auto. cbn [fst snd]. now apply thermal_found.
Qed.

Lemma poles_main_spec J g : commutes_with_conj J ->
  poles_main J g = NoRoot \/
  exists v rows, poles_main J g = Found (v :: rows) /\ vacuum_row v /\ Forall2 (thermal_row J g) fits rows.
Proof.
  intros HJ. unfold poles_main, pole_res.
  destruct (find_pole _) as [| | |[p z]] eqn:E.
  - exfalso. unfold find_pole in E. destruct (pole_find_root _) as [|[[]|]] eqn:X; try discriminate. now apply pole_find_root_ret in X.
  - now left.
  - exfalso. unfold find_pole in E. destruct (pole_find_root _) as [|[[]|]] eqn:X; discriminate.
  - set (l := combine (skipn 1 temperatures) (combine masses df0s)).
    destruct (thermal_poles_spec J g HJ l [(p, z)]) as [->|(vs & -> & F)]; [|now left|].
    { unfold l, temperatures, masses, df0s. cbn [skipn combine]. repeat constructor; cbn [fst snd]; lra. }
    right. unfold l, temperatures, masses, df0s in F. cbn [skipn combine] in F.
    repeat match goal with H : Forall2 _ (_ :: _) _ |- _ => inversion H; subst; clear H | H : Forall2 _ [] _ |- _ => inversion H; subst; clear H end.
    cbn [fst snd] in *. unfold pole_rows, temperatures. cbn [app combine]. do 2 eexists. split; [reflexivity|]. split.
    + apply find_pole_found in E as (A & B & Hz). rewrite MG_vac in A, Hz. rewrite TOL_acc in A. unfold vacuum_row. cbv zeta.
      replace (- (p * p) / RtoC (m_vacuum * m_vacuum))%C with (- (p / RtoC m_vacuum * (p / RtoC m_vacuum)))%C.
      * replace f0_vacuum with f0_ym by (unfold f0_vacuum, f0_ym; lra). split; auto. split; auto. split; auto. rewrite Hz. unfold vacuum_residue. now rewrite compute_residue_slope.
      * assert (RtoC m_vacuum <> RtoC 0) by (apply RtoC_neq; unfold m_vacuum; lra). rewrite RtoC_mult. field. auto.
    + unfold fits. repeat constructor; match goal with H : thermal_row J g (?t, ?m, ?d + f0_ym) ?v |- thermal_row J g (?t', ?m', ?f) ?v =>
        replace f with (d + f0_ym) by (unfold f0_ym; lra); exact H end.
Qed.

(** ** Residues of the modelled propagators *)
Lemma vacuum_propagator_residue f0 s0 c : s0 <> RtoC 0 -> c <> RtoC 0 -> simple_pole (fun s => ym_gluon_propagator_landau s f0) s0 c ->
  Clim0 (fun eps => vacuum_residue (fun h z => compute_residue_with_eps h z eps) (fun z => ym_gluon_dressing_inv_landau z f0) s0) c.
Proof.
  intros N Nc H. apply vacuum_residue_limit; auto. revert H. apply simple_pole_ext. destruct (near_nonzero s0 N) as (d & Hd & K).
  exists d. split; auto. intros w W. destruct (K w W) as [Nw _]. unfold ym_gluon_propagator_landau, ym_gluon_dressing_landau. numcbn.
  generalize (ym_gluon_dressing_inv_landau w f0). intros x.
  destruct (Ceq_dec x (RtoC 0)) as [->|Nx].
  - replace (w * RtoC 0)%C with (RtoC 0) by ring. rewrite Cinv_0. unfold Cdiv. ring.
  - field. auto.
Qed.

Lemma thermal_propagator_residue J g m beta f0 om0 c : om0 <> RtoC 0 -> c <> RtoC 0 ->
  simple_pole (fun s => zp_ym_gluon_propagator_t J g (Csqrt s) m beta f0) (om0 * om0)%C c ->
  Clim0 (fun eps => thermal_residue (fun h z => compute_residue_with_eps h z eps) (fun z => zp_ym_gluon_dressing_t_inv J g z m beta f0) om0) (Cconj c).
Proof.
  intros N Nc H. apply thermal_residue_limit; auto. { intros w. apply zp_ym_gluon_dressing_t_inv_ev. }
  revert H. apply simple_pole_ext. destruct (near_nonzero (om0 * om0)%C) as (d & Hd & K); [now apply Cmult_neq_0|].
  exists d. split; auto. intros w W. destruct (K w W) as [Nw _]. unfold zp_ym_gluon_propagator_t, zp_ym_gluon_dressing_t. numcbn.
  rewrite Csqrt_sqr. generalize (zp_ym_gluon_dressing_t_inv J g (Csqrt w) m beta f0). intros x.
  destruct (Ceq_dec x (RtoC 0)) as [->|Nx].
  - replace (w * RtoC 0)%C with (RtoC 0) by ring. rewrite Cinv_0. ring.
  - field. auto.
Qed.

(** The first quadrant. *)
Lemma thermal_quadrant f p z : find_thermal_pole f = Found (p, z) ->
  exists root, Cmod (f root) < accuracy /\ (fst root < 0 -> snd root < 0 -> 0 < fst p /\ 0 < snd p).
Proof. intros H. apply find_thermal_pole_found in H as (r & A & _ & _ & _ & _ & B & D & _). rewrite TOL_acc in A. exists r. split; auto. rewrite B, D. lra. Qed.

Lemma energy_sqrt (q m : R) : energy q m = sqrt (q * q + m * m).
Proof. rewrite energy_R. f_equal. ring. Qed.
Lemma reflection_all (q p beta : R) (om : C) (m1 m2 m mq mu : R) nc :
  off_cut om (sqrt (q * q + m1 * m1)) -> off_cut om (sqrt (q * q + m2 * m2)) -> off_cut om (sqrt (q * q + m * m)) ->
  off_cut om (sqrt (q * q + mq * mq)) -> off_cut om q ->
  bubbles_mm q (Cconj om) p m1 m2 beta = map Cconj (bubbles_mm q om p m1 m2 beta) /\
  bubbles_same q (Cconj om) p m beta = map Cconj (bubbles_same q om p m beta) /\
  bubbles_m0 q (Cconj om) p m beta = map Cconj (bubbles_m0 q om p m beta) /\
  bubbles_0 q (Cconj om) p beta = map Cconj (bubbles_0 q om p beta) /\
  glue_parts q (Cconj om) p m beta = map Cconj (glue_parts q om p m beta) /\
  quark_parts nc q (Cconj om) p mq beta mu = map Cconj (quark_parts nc q om p mq beta mu) /\
  quark_parts_zero_temp nc q (Cconj om) p mq mu = map Cconj (quark_parts_zero_temp nc q om p mq mu).
Proof.
  rewrite <- !energy_sqrt. intros H1 H2 H3 H4 H5.
  split; [now apply bubbles_mm_conj|]. split; [now apply bubbles_same_conj|]. split; [now apply bubbles_m0_conj|]. split; [now apply bubbles_0_conj|].
  split; [now apply glue_parts_conj|]. split; [now apply quark_parts_conj|now apply quark_parts_zero_temp_conj].
Qed.

(** The plotted series. *)
Lemma plots res i p z : nth_error res i = Some (p, z) ->
  nth_error (poles_re res) i = Some (fst p) /\ nth_error (poles_im res) i = Some (snd p) /\ nth_error (residues_ratio res) i = Some z /\
  exists ph, nth_error (residues_phase res) i = Some ph /\ - (PI / 2) < ph < PI / 2 /\ tan ph = z.
Proof.
  intros H. unfold residues_phase, residues_ratio, poles_re, poles_im.
  split; [exact (map_nth_error (fun v : C * R => fst (fst v)) i res H)|]. split; [exact (map_nth_error (fun v : C * R => snd (fst v)) i res H)|].
  assert (K := map_nth_error (@snd C R) i res H). split; [exact K|].
  exists (atan z). split; [exact (map_nth_error atan i _ K)|]. pose proof (atan_bound z). split; [lra|]. apply tan_atan.
Qed.
