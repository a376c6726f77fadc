(** * Expansion of the thermal logarithms at small momentum *)
From Coq Require Import Reals Lra Lia List.
From Coquelicot Require Import Coquelicot.
From Verif Require Import Num CField MCommon MThermal SpecInteg PCplx PVac PLogs PReal PMass SpecLim PLim PLimC.
Import List ListNotations.
Open Scope R_scope.

Section Expansion.
Variables (x y : R).
Let n := x * x + y * y.
Hypothesis Hn : n <= 1 / 4.
Let w : C := (x, y).
Definition eP (t : R) : R := 1 + 2 * t * x + t * t * n.
Definition eM (t : R) : R := 1 - 2 * t * x + t * t * n.
Definition eA (t : R) : R := (ln (eP t) - ln (eM t)) / 2.
Definition eB (t : R) : R := atan (2 * t * y / (1 - t * t * n)).
Lemma n_nonneg : 0 <= n. Proof. unfold n. nra. Qed.
Lemma x_small : Rabs x <= 1 / 2.
Proof. apply Rabs_le. unfold n in Hn. split; nra. Qed.
Lemma eP_pos t : 0 <= t <= 1 -> 0 < eP t.
Proof. intros H. replace (eP t) with ((1 + t * x) * (1 + t * x) + (t * y) * (t * y)) by (unfold eP, n; ring). pose proof x_small as X. apply Rabs_le_between in X. assert (1 / 2 <= 1 + t * x) by nra. nra. Qed.
Lemma eM_pos t : 0 <= t <= 1 -> 0 < eM t.
Proof. intros H. replace (eM t) with ((1 - t * x) * (1 - t * x) + (t * y) * (t * y)) by (unfold eM, n; ring). pose proof x_small as X. apply Rabs_le_between in X. assert (1 / 2 <= 1 - t * x) by nra. nra. Qed.
Lemma eD_pos t : 0 <= t <= 1 -> 0 < 1 - t * t * n.
Proof. intros H. pose proof n_nonneg. assert (t * t <= 1) by nra. nra. Qed.

(** Derivative along the segment from 0 to w. *)
Definition ed (t : R) : C := (RtoC 2 * w / (RtoC 1 - RtoC (t * t) * (w * w)))%C.
Lemma eden t : (1 - t * t * (x * x - y * y)) * (1 - t * t * (x * x - y * y)) + (t * t * (x * y + y * x)) * (t * t * (x * y + y * x)) = eP t * eM t.
Proof. unfold eP, eM, n. ring. Qed.
Lemma eden2 t : (1 - t * t * n) * (1 - t * t * n) + (2 * t * y) * (2 * t * y) = eP t * eM t.
Proof. unfold eP, eM, n. ring. Qed.
Lemma eA_d t : 0 <= t <= 1 -> is_derive eA t (fst (ed t)).
Proof.
  intros H. pose proof (eP_pos t H) as HP. pose proof (eM_pos t H) as HM. pose proof (Rmult_lt_0_compat _ _ HP HM) as HPM.
  assert (E : fst (ed t) = (2 * x * (1 - t * t * (x * x - y * y)) - 2 * y * (t * t * (x * y + y * x))) / (eP t * eM t)).
  { rewrite <- eden. unfold ed, w. simpl. rewrite <- eden in HPM. field. match goal with |- ?z <> 0 => replace z with ((1 - t * t * (x * x - y * y)) * (1 - t * t * (x * x - y * y)) + (t * t * (x * y + y * x)) * (t * t * (x * y + y * x))) by ring end. lra. }
  rewrite E. unfold eA. unfold eP, eM in *. auto_derive; [repeat split; lra|]. unfold n in *. field. split; lra.
Qed.
Lemma eB_d t : 0 <= t <= 1 -> is_derive eB t (snd (ed t)).
Proof.
  intros H. pose proof (eP_pos t H) as HP. pose proof (eM_pos t H) as HM. pose proof (Rmult_lt_0_compat _ _ HP HM) as HPM. pose proof (eD_pos t H) as HD.
  assert (E : snd (ed t) = (2 * x * (t * t * (x * y + y * x)) + 2 * y * (1 - t * t * (x * x - y * y))) / (eP t * eM t)).
  { rewrite <- eden. unfold ed, w. simpl. rewrite <- eden in HPM. field. match goal with |- ?z <> 0 => replace z with ((1 - t * t * (x * x - y * y)) * (1 - t * t * (x * x - y * y)) + (t * t * (x * y + y * x)) * (t * t * (x * y + y * x))) by ring end. lra. }
  rewrite E, <- eden2. rewrite <- eden2 in HPM. unfold eB. auto_derive; [lra|].
  match goal with |- ?a = ?b => replace b with ((2 * y * (1 - t * t * n) + 2 * t * y * (2 * t * n)) / ((1 - t * t * n) * (1 - t * t * n) + 2 * t * y * (2 * t * y))) by (unfold n; field; unfold n in HPM; lra) end.
  field. repeat split; lra.
Qed.
Lemma ed_rem t : 0 <= t <= 1 -> let z := (ed t - RtoC 2 * w - RtoC (2 * (t * t)) * (w * w * w))%C in Cmod z <= 3 * Cmod w ^ 5.
Proof.
  intros H z. assert (Ht : 0 <= t * t <= 1) by nra. assert (Ht4 : 0 <= t * t * (t * t)) by (apply Rmult_le_pos; lra).
  assert (Mw : Cmod w * Cmod w = n). { unfold Cmod, w. simpl. rewrite sqrt_sqrt by nra. unfold n. ring. }
  assert (Dn : 3 / 4 <= Cmod (RtoC 1 - RtoC (t * t) * (w * w))%C).
  { pose proof (Cmod_triangle (RtoC 1 - RtoC (t * t) * (w * w)) (RtoC (t * t) * (w * w)))%C as T.
    replace (RtoC 1 - RtoC (t * t) * (w * w) + RtoC (t * t) * (w * w))%C with (RtoC 1) in T by ring. rewrite !Cmod_mult, Cmod_1, Cmod_real, Rabs_pos_eq, Mw in T by lra. nra. }
  assert (Dz : (RtoC 1 - RtoC (t * t) * (w * w))%C <> RtoC 0) by (intros E; rewrite E, Cmod_0 in Dn; lra).
  assert (E : z = (RtoC (2 * (t * t * (t * t))) * (w * w * w * w * w) / (RtoC 1 - RtoC (t * t) * (w * w)))%C).
  { unfold z, ed. rewrite !RtoC_mult. field. rewrite <- RtoC_mult. exact Dz. }
  rewrite E. unfold Cdiv. rewrite !Cmod_mult, Cmod_inv by auto. rewrite Cmod_real, Rabs_pos_eq by lra. pose proof (Cmod_ge_0 w). set (r := Cmod w) in *. set (D := Cmod (RtoC 1 - RtoC (t * t) * (w * w))%C) in *.
  assert (P5 : 0 <= r * r * r * r * r) by (repeat apply Rmult_le_pos; auto). assert (I : / D <= 4 / 3) by (replace (4 / 3) with (/ (3 / 4)) by field; apply Rinv_le_contravar; lra).
  assert (0 < / D) by (apply Rinv_0_lt_compat; lra). assert (T4 : t * t * (t * t) <= 1) by nra.
  replace (3 * r ^ 5) with (3 * (r * r * r * r * r)) by ring.
  assert (A1 : 2 * (t * t * (t * t)) * (r * r * r * r * r) <= 2 * (r * r * r * r * r)) by (apply Rmult_le_compat_r; lra).
  assert (A0 : 0 <= 2 * (t * t * (t * t)) * (r * r * r * r * r)) by (apply Rmult_le_pos; lra). nra.
Qed.
Lemma rem_bound (f df : R -> R) c a b : (forall t, 0 <= t <= 1 -> is_derive f t (df t)) -> f 0 = 0 ->
  (forall t, 0 <= t <= 1 -> Rabs (df t - 2 * a - 2 * (t * t) * b) <= c) -> Rabs (f 1 - 2 * a - 2 / 3 * b) <= c.
Proof.
  intros Hd H0 Hb. destruct (MVT_gen (fun t => f t - 2 * a * t - 2 / 3 * b * (t * t * t)) 0 1 (fun t => df t - 2 * a - 2 * (t * t) * b)) as (t & Ht & E).
  - intros t. rewrite Rmin_left, Rmax_right by lra. intros Ht. specialize (Hd t ltac:(lra)). auto_derive; [eexists; exact Hd|]. change (fun x0 : R => f x0) with f. rewrite (is_derive_unique _ _ _ Hd). field.
  - intros t. rewrite Rmin_left, Rmax_right by lra. intros Ht. specialize (Hd t ltac:(lra)). apply continuity_pt_filterlim. apply (ex_derive_continuous (K := R_AbsRing) (V := R_NormedModule) (fun t => f t - 2 * a * t - 2 / 3 * b * (t * t * t)) t).
    auto_derive. eexists; exact Hd.
  - rewrite Rmin_left, Rmax_right in Ht by lra. specialize (Hb t Ht). rewrite H0 in E. replace (f 1 - 2 * a - 2 / 3 * b) with (df t - 2 * a - 2 * (t * t) * b) by lra. exact Hb.
Qed.
Lemma w_cube : (w * w * w)%C = (x * x * x - 3 * x * (y * y), 3 * (x * x) * y - y * y * y).
Proof. unfold w. apply Ceq; simpl; ring. Qed.
Lemma Cln_w : Cln ((RtoC 1 + w) / (RtoC 1 - w))%C = (eA 1, eB 1).
Proof.
  assert (H : 0 <= 1 <= 1) by lra. pose proof (eP_pos 1 H) as HP. pose proof (eM_pos 1 H) as HM. pose proof (eD_pos 1 H) as HD. rewrite !Rmult_1_l in HD.
  assert (E : ((RtoC 1 + w) / (RtoC 1 - w))%C = ((1 - n) / eM 1, 2 * y / eM 1)).
  { unfold w, eM, n in *. apply Ceq; simpl; field; lra. }
  rewrite E. unfold Cln. f_equal.
  - unfold Cmod. cbn [fst snd]. replace (((1 - n) / eM 1) ^ 2 + (2 * y / eM 1) ^ 2) with (eP 1 / eM 1).
    2: { unfold eP, eM, n in *. field. lra. }
    unfold eA. assert (Q : 0 < eP 1 / eM 1) by now apply Rdiv_lt_0_compat. rewrite <- ln_div by auto.
    assert (E2 : ln (sqrt (eP 1 / eM 1)) + ln (sqrt (eP 1 / eM 1)) = ln (eP 1 / eM 1)) by (rewrite <- ln_mult by (apply sqrt_lt_R0; auto); rewrite sqrt_sqrt; auto; lra). lra.
  - unfold Carg. cbn [fst snd]. assert (0 < (1 - n) / eM 1) by now apply Rdiv_lt_0_compat. destruct (Rlt_dec 0 ((1 - n) / eM 1)); [|lra].
    unfold eB. f_equal. field. repeat split; lra.
Qed.
Lemma Cln_expansion : let r := (Cln ((RtoC 1 + w) / (RtoC 1 - w)) - RtoC 2 * w - RtoC (2 / 3) * (w * w * w))%C in
  Rabs (fst r) <= 3 * Cmod w ^ 5 /\ Rabs (snd r) <= 3 * Cmod w ^ 5.
Proof.
  intros r. unfold r. rewrite Cln_w, w_cube. split.
  - replace (fst _) with (eA 1 - 2 * x - 2 / 3 * (x * x * x - 3 * x * (y * y))) by (unfold w; simpl; ring).
    apply (rem_bound eA (fun t => fst (ed t))); [exact eA_d|unfold eA, eP, eM; match goal with |- (ln ?a - ln ?b) / 2 = 0 => replace a with 1 by ring; replace b with 1 by ring end; field|].
    intros t Ht. eapply Rle_trans; [|apply (ed_rem t Ht)]. eapply Rle_trans; [|apply Rmax_Cmod]. eapply Rle_trans; [|apply Rmax_l]. right. f_equal. rewrite w_cube. unfold w. simpl. ring.
  - replace (snd _) with (eB 1 - 2 * y - 2 / 3 * (3 * (x * x) * y - y * y * y)) by (unfold w; simpl; ring).
    apply (rem_bound eB (fun t => snd (ed t))); [exact eB_d|unfold eB, Rdiv; replace (2 * 0 * y) with 0 by ring; rewrite Rmult_0_l; apply atan_0|].
    intros t Ht. eapply Rle_trans; [|apply (ed_rem t Ht)]. eapply Rle_trans; [|apply Rmax_Cmod]. eapply Rle_trans; [|apply Rmax_r]. right. f_equal. rewrite w_cube. unfold w. simpl. ring.
Qed.
End Expansion.

Lemma tends_Cmod {F : (R -> Prop) -> Prop} {FF : Filter F} (f : R -> C) a : tendsC F f a -> tends F (fun x => Cmod (f x)) (Cmod a).
Proof.
  intros [H1 H2]. unfold Cmod. apply (tends_comp sqrt); [apply continuous_sqrt|]. apply tends_plus; now apply tends_pow.
Qed.
Lemma ev_neq {F : (R -> Prop) -> Prop} {FF : Filter F} (f : R -> C) a : tendsC F f a -> a <> RtoC 0 -> F (fun x => f x <> RtoC 0).
Proof.
  intros H Ha. pose proof (tends_Cmod f a H) as T. assert (P : 0 < Cmod a) by now apply Cmod_gt_0. specialize (T (fun y => 0 < y)).
  assert (L : F (fun x => 0 < Cmod (f x))). { apply T. exists (mkposreal _ P). intros y Hy. apply Rabs_def2 in Hy. unfold minus, plus, opp in Hy. simpl in Hy. lra. }
  revert L. apply filter_imp. intros x Hx. now apply Cmod_gt_0.
Qed.
Notation Z0 := (at_right 0).
Lemma ev_p : Z0 (fun p => 0 < p). Proof. apply (ev_right _ 0 1); intros; lra. Qed.
Lemma Tp : tendsC Z0 (fun p => RtoC p) (RtoC 0). Proof. apply tendsC_RtoC, tends_id_right. Qed.

Section Branch.
Variables (q : R) (om e d : C).
Notation r0 := (CR om (RtoC 0) e d).
Hypothesis Hr : r0 <> RtoC 0.
Notation r p := (CR om (RtoC p) e d).
Notation K p := (RtoC 2 * RtoC q * RtoC p)%C.
Notation L p := (CL (RtoC q) om (RtoC p) e d).
Lemma Tr : tendsC Z0 (fun p => r p) r0.
Proof. pose proof (tends_id_right 0) as Ti. unfold CR. tendCf. Qed.
Lemma TK : tendsC Z0 (fun p => K p) (RtoC 0).
Proof. pose proof (tends_id_right 0) as Ti. eapply tendsC_eq; [|tendCf]. ring. Qed.
Lemma ev_r : Z0 (fun p => r p <> RtoC 0). Proof. apply (ev_neq _ r0); [exact Tr|exact Hr]. Qed.
Lemma ev_rp : Z0 (fun p => (r p + K p)%C <> RtoC 0).
Proof. pose proof Tr. pose proof TK. apply (ev_neq (fun p => r p + K p)%C (r0 + RtoC 0)%C); [exact (tendsC_plus _ _ _ _ Tr TK)|]. now rewrite Cplus_0_r. Qed.
Lemma ev_rm : Z0 (fun p => (r p - K p)%C <> RtoC 0).
Proof. pose proof Tr. pose proof TK. apply (ev_neq (fun p => r p - K p)%C (r0 - RtoC 0)%C); [exact (tendsC_minus _ _ _ _ Tr TK)|]. replace (r0 - RtoC 0)%C with r0 by ring. exact Hr. Qed.

Definition rho (p : R) : C := ((L p - RtoC 2 * (K p / r p) - RtoC (2 / 3) * ((K p / r p) * (K p / r p) * (K p / r p))) / (RtoC p * RtoC p * RtoC p))%C.
Lemma Trho : tendsC Z0 rho (RtoC 0).
Proof.
  pose proof Tr as T1. pose proof TK as T2. pose proof (tends_id_right 0) as Ti.
  set (w := fun p : R => (K p / r p)%C). set (v := fun p : R => (RtoC 2 * RtoC q / r p)%C).
  assert (Tw : tendsC Z0 w (RtoC 0)). { unfold w. eapply tendsC_eq; [|exact (tendsC_div _ _ _ _ Hr TK Tr)]. unfold Cdiv. ring. }
  assert (Tv : tendsC Z0 v (RtoC 2 * RtoC q / r0)%C). { unfold v. exact (tendsC_div _ _ _ _ Hr (tendsC_const _) Tr). }
  pose proof (tends_Cmod _ _ Tw) as Mw. pose proof (tends_Cmod _ _ Tv) as Mv. rewrite Cmod_0 in Mw.
  assert (S : Z0 (fun p => Cmod (w p) < 1 / 2)).
  { specialize (Mw (fun y => y < 1 / 2)). apply Mw. assert (P : 0 < 1 / 2) by lra. exists (mkposreal _ P). intros y Hy. apply Rabs_def2 in Hy. unfold minus, plus, opp in Hy. simpl in Hy. lra. }
  assert (B : Z0 (fun p => Rabs (fst (rho p)) <= 3 * (Cmod (v p) * Cmod (v p) * Cmod (v p)) * (Cmod (w p) * Cmod (w p)) /\
                           Rabs (snd (rho p)) <= 3 * (Cmod (v p) * Cmod (v p) * Cmod (v p)) * (Cmod (w p) * Cmod (w p)))).
  { generalize (filter_and _ _ S (filter_and _ _ ev_p (filter_and _ _ ev_r ev_rm))). apply filter_imp. intros p (A1 & A2 & A3 & A4).
    assert (EL : L p = Cln ((RtoC 1 + w p) / (RtoC 1 - w p))%C).
    { unfold CL, w. f_equal. field. repeat split; auto. }
    assert (Ew : w p = (RtoC p * v p)%C) by (unfold w, v, Cdiv; ring).
    assert (Mp : Cmod (w p) = p * Cmod (v p)) by (rewrite Ew, Cmod_mult, Cmod_real, Rabs_pos_eq; lra).
    pose proof (Cln_expansion (fst (w p)) (snd (w p))) as X. cbv zeta in X. rewrite <- surjective_pairing in X.
    assert (Hn : fst (w p) * fst (w p) + snd (w p) * snd (w p) <= 1 / 4).
    { replace (fst (w p) * fst (w p) + snd (w p) * snd (w p)) with (Cmod (w p) * Cmod (w p)). { pose proof (Cmod_ge_0 (w p)). nra. }
      unfold Cmod. rewrite sqrt_sqrt. ring. pose proof (pow2_ge_0 (fst (w p))). pose proof (pow2_ge_0 (snd (w p))). lra. }
    specialize (X Hn). destruct X as [X1 X2]. assert (P3 : 0 < p * p * p) by (repeat apply Rmult_lt_0_compat; auto).
    assert (E : rho p = (RtoC (/ (p * p * p)) * (Cln ((RtoC 1 + w p) / (RtoC 1 - w p)) - RtoC 2 * w p - RtoC (2 / 3) * (w p * w p * w p)))%C).
    { unfold rho. rewrite EL. fold (w p). rewrite <- !RtoC_mult. unfold Cdiv. rewrite <- RtoC_inv by lra. ring. }
    set (z := (Cln ((RtoC 1 + w p) / (RtoC 1 - w p)) - RtoC 2 * w p - RtoC (2 / 3) * (w p * w p * w p))%C) in *.
    assert (E1 : fst (rho p) = / (p * p * p) * fst z) by (rewrite E; simpl; ring). assert (E2 : snd (rho p) = / (p * p * p) * snd z) by (rewrite E; simpl; ring).
    assert (Q : / (p * p * p) * (3 * Cmod (w p) ^ 5) = 3 * (Cmod (v p) * Cmod (v p) * Cmod (v p)) * (Cmod (w p) * Cmod (w p))) by (rewrite Mp; field; lra).
    assert (Pi : 0 < / (p * p * p)) by now apply Rinv_0_lt_compat.
    rewrite E1, E2, <- Q, !Rabs_mult, (Rabs_pos_eq (/ _)) by lra. split; apply Rmult_le_compat_l; auto; lra. }
  assert (T : tends Z0 (fun p => 3 * (Cmod (v p) * Cmod (v p) * Cmod (v p)) * (Cmod (w p) * Cmod (w p))) 0).
  { eapply tends_eq; [|tendf]. simpl. ring. }
  split; (eapply tends_squeeze0; [|exact T]); revert B; apply filter_imp; intros p [B1 B2]; auto.
Qed.
Lemma L_eq p : 0 < p -> L p = (RtoC 2 * (K p / r p) + RtoC (2 / 3) * ((K p / r p) * (K p / r p) * (K p / r p)) + RtoC p * RtoC p * RtoC p * rho p)%C.
Proof.
  intros Hp. assert (Hp' : RtoC p <> RtoC 0) by (apply RtoC_neq0; lra). unfold rho. generalize (K p / r p)%C. intros w. generalize (L p). intros l. field. auto.
Qed.
End Branch.

(** ** Limits of the combinations of one branch that occur in the integrands *)
Section Abs.
Variables (q : R) (om e : C) (fr frho fL : R -> C) (r0 : C).
Notation K p := (RtoC 2 * RtoC q * RtoC p)%C.
Hypothesis Hr : r0 <> RtoC 0.
Hypothesis Tr' : tendsC Z0 fr r0.
Hypothesis Trho' : tendsC Z0 frho (RtoC 0).
Hypothesis EL : forall p, 0 < p -> fL p = (RtoC 2 * (K p / fr p) + RtoC (2 / 3) * ((K p / fr p) * (K p / fr p) * (K p / fr p)) + RtoC p * RtoC p * RtoC p * frho p)%C.
Hypothesis Er : Z0 (fun p => fr p <> RtoC 0).
Hypothesis Erp : Z0 (fun p => (fr p + K p)%C <> RtoC 0).
Hypothesis Erm : Z0 (fun p => (fr p - K p)%C <> RtoC 0).
Definition fa (p : R) : C := (om * fr p + RtoC 2 * Ci * e * (RtoC p * RtoC p))%C.
Let Ti := tends_id_right 0.
Lemma Tfa : tendsC Z0 fa (om * r0)%C.
Proof. unfold fa. eapply tendsC_eq; [|tendCf]. ring. Qed.
Lemma r0sq : ((r0 + RtoC 2 * RtoC q * RtoC 0) * (r0 - RtoC 2 * RtoC q * RtoC 0))%C <> RtoC 0.
Proof. replace ((r0 + RtoC 2 * RtoC q * RtoC 0) * (r0 - RtoC 2 * RtoC q * RtoC 0))%C with (r0 * r0)%C by ring. now apply Cmult_neq_0. Qed.
Ltac nz := repeat first [exact r0sq | exact Hr | apply Cmult_neq_0 | (intros X; apply (f_equal fst) in X; simpl in X; lra)].
Ltac ev := generalize (filter_and _ _ ev_p (filter_and _ _ Er (filter_and _ _ Erp Erm))); apply filter_imp; intros p (Hp & A1 & A2 & A3); rewrite ?(EL p Hp);
  assert (Hp' : RtoC p <> RtoC 0) by (apply RtoC_neq0; lra); unfold fa; generalize dependent (fr p); generalize (frho p); intros.
Ltac go E := apply (tendsC_ext E); [ev|pose proof Tfa as Tfa'; eapply tendsC_eq; [|tendCf; try solve [nz]]].
Lemma b0_tends : tendsC Z0 (fun p => (fL p / RtoC p)%C) (RtoC 4 * RtoC q / r0)%C.
Proof.
  go (fun p => (RtoC 4 * RtoC q / fr p + RtoC (16 / 3) * (RtoC q * RtoC q * RtoC q) * (RtoC p * RtoC p) / (fr p * fr p * fr p) + RtoC p * RtoC p * frho p)%C).
  - rewrite !RtoC_div by lra. field. repeat split; auto; nz.
  - field. exact Hr.
Qed.
Lemma bt_tends : tendsC Z0 (fun p => (((fr p * fr p - K p * K p) * fL p - RtoC 2 * K p * fr p) / (RtoC p * RtoC p * RtoC p))%C) (RtoC (- (32 / 3)) * (RtoC q * RtoC q * RtoC q) / r0)%C.
Proof.
  go (fun p => (RtoC (- (32 / 3)) * (RtoC q * RtoC q * RtoC q) / fr p - RtoC (64 / 3) * (RtoC q * RtoC q * RtoC q * RtoC q * RtoC q) * (RtoC p * RtoC p) / (fr p * fr p * fr p) + (fr p * fr p - RtoC 4 * (RtoC q * RtoC q) * (RtoC p * RtoC p)) * frho p)%C).
  - rewrite !RtoC_opp, !RtoC_div by lra. field. repeat split; auto; nz.
  - field. exact Hr.
Qed.
Lemma bl_tends : tendsC Z0 (fun p => ((fL p * (fa p * fa p) - RtoC 2 * K p * (om * om) * fr p) / (RtoC p * RtoC p * RtoC p))%C)
  (RtoC 16 * RtoC q * Ci * e * om + RtoC (16 / 3) * (RtoC q * RtoC q * RtoC q) * (om * om) / r0)%C.
Proof.
  go (fun p => (RtoC 16 * RtoC q * Ci * e * om - RtoC 16 * RtoC q * (e * e) * (RtoC p * RtoC p) / fr p + RtoC (16 / 3) * (RtoC q * RtoC q * RtoC q) * (fa p * fa p) / (fr p * fr p * fr p) + frho p * (fa p * fa p))%C).
  - rewrite !RtoC_div by lra. field [Ci2]. repeat split; auto; nz.
  - field. exact Hr.
Qed.
Lemma brl_tends : tendsC Z0 (fun p => ((fr p * fL p - RtoC 2 * K p) / (RtoC p * RtoC p * RtoC p))%C) (RtoC (16 / 3) * (RtoC q * RtoC q * RtoC q) / (r0 * r0))%C.
Proof.
  go (fun p => (RtoC (16 / 3) * (RtoC q * RtoC q * RtoC q) / (fr p * fr p) + fr p * frho p)%C).
  - rewrite !RtoC_div by lra. field. repeat split; auto; nz.
  - field. exact Hr.
Qed.
Lemma bip_tends : tendsC Z0 (fun p => (/ (fr p + K p))%C) (/ r0)%C.
Proof. eapply tendsC_eq; [|tendCf]; [f_equal; ring|]. replace (r0 + RtoC 2 * RtoC q * RtoC 0)%C with r0 by ring. exact Hr. Qed.
Lemma bim_tends : tendsC Z0 (fun p => (/ (fr p - K p))%C) (/ r0)%C.
Proof. eapply tendsC_eq; [|tendCf]; [f_equal; ring|]. replace (r0 - RtoC 2 * RtoC q * RtoC 0)%C with r0 by ring. exact Hr. Qed.
Lemma bid_tends : tendsC Z0 (fun p => ((/ (fr p + K p) - / (fr p - K p)) / RtoC p)%C) (- (RtoC 4 * RtoC q / (r0 * r0)))%C.
Proof.
  go (fun p => (- (RtoC 4 * RtoC q / ((fr p + K p) * (fr p - K p))))%C).
  - field. repeat split; auto.
  - replace ((r0 + RtoC 2 * RtoC q * RtoC 0) * (r0 - RtoC 2 * RtoC q * RtoC 0))%C with (r0 * r0)%C by ring. reflexivity.
Qed.
Lemma e1_tends : tendsC Z0 (fun p => ((- (fa p * fa p) * (/ (fr p + K p) + / (fr p - K p)) + RtoC 2 * (om * om) * fr p) / (RtoC p * RtoC p))%C)
  (- (RtoC 8 * Ci * e * om) - RtoC 8 * (om * om) * (RtoC q * RtoC q) / r0)%C.
Proof.
  go (fun p => ((- (RtoC 8 * Ci * e * om) * (fr p * fr p) + RtoC 8 * (e * e) * (RtoC p * RtoC p) * fr p - RtoC 8 * (om * om) * (RtoC q * RtoC q) * fr p) / ((fr p + K p) * (fr p - K p)))%C).
  - field [Ci2]. repeat split; auto.
  - field. repeat split; auto.
Qed.
Lemma e2_tends : tendsC Z0 (fun p => ((RtoC 2 * (RtoC q / RtoC p) * om * fa p * fL p + (RtoC q / RtoC p) * (fa p * fa p) * (/ (fr p + K p) - / (fr p - K p)) - RtoC 4 * (om * om) * (RtoC q * RtoC q)) / (RtoC p * RtoC p))%C)
  (- (RtoC (16 / 3)) * (RtoC q * RtoC q * RtoC q * RtoC q) * (om * om) / (r0 * r0))%C.
Proof.
  go (fun p => (RtoC 16 * Ci * e * (RtoC q * RtoC q) * om / fr p + RtoC 2 * RtoC q * om * fa p * (RtoC (16 / 3) * (RtoC q * RtoC q * RtoC q) / (fr p * fr p * fr p) + frho p)
     - RtoC 4 * (RtoC q * RtoC q) * (RtoC 4 * (RtoC q * RtoC q) * (om * om) + RtoC 4 * Ci * e * om * fr p - RtoC 4 * (e * e) * (RtoC p * RtoC p)) / ((fr p + K p) * (fr p - K p)))%C).
  - rewrite !RtoC_div by lra. field [Ci2]. repeat split; auto; nz.
  - rewrite !RtoC_div by lra. field. repeat split; auto; nz. 
Qed.
End Abs.
