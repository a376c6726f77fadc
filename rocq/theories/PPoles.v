(** * The gluon-pole program: symmetric roots, residues, rows *)
From Coq Require Import Reals Psatz List.
From Coquelicot Require Import Coquelicot.
From Verif Require Import Num CField MCommon MConsts MUtils MVacuum MDress MPoles SpecConsts SpecDress PCplx PVac PVac2 PUtils PSym PSymC PSymD PSymE.
Import List ListNotations.
Open Scope R_scope.

#[local] Opaque MAX_ITER compute_residue TOL MG.
Lemma TOL_pos : 0 < TOL. Proof. change TOL with (/ 10 ^ 12). apply Rinv_0_lt_compat, pow_lt. lra. Qed.
Lemma MG_pos : 0 < MG. Proof. change MG with (656 / 1000). lra. Qed.

Lemma find_root_loop_small f tol n : forall a b r v, find_root_loop RootOpsC f tol n a b (f a) (f b) = Some (r, v) -> v = f r /\ Cmod (f r) < tol.
Proof.
  induction n as [|n IH]; intros a b r v; cbn; [discriminate|].
  destruct (Rlt_dec (Cmod (f b)) tol) as [L|L].
  - intros H. assert (b = r /\ f b = v) as [<- <-] by (now inversion H). auto.
  - intros H. now apply IH in H.
Qed.

Lemma pole_find_root_ret f : pole_find_root f = Panic -> False.
Proof.
  unfold pole_find_root, find_root. cbn [fst snd ro_eq ro_pos RootOpsC]. destruct (Ceq_dec Z0 Z1) as [E|E].
  - exfalso. apply (f_equal fst) in E. cbn in E. lra.
  - destruct (Rlt_dec 0 TOL) as [L|L]; cbn; [discriminate|]. intros _. apply L, TOL_pos.
Qed.

Lemma pole_find_root_small f r v : pole_find_root f = Ret (Some (r, v)) -> Cmod (f r) < TOL.
Proof.
  unfold pole_find_root, find_root. cbn [fst snd].
  destruct (ro_eq RootOpsC Z0 Z1); [discriminate|]. destruct (negb _); [discriminate|].
  intros H. assert (E : find_root_loop RootOpsC f TOL MAX_ITER Z0 Z1 (f Z0) (f Z1) = Some (r, v)) by (now inversion H).
  now apply find_root_loop_small in E.
Qed.

(** ** Symmetry *)
Definition symmetric (f : C -> C) := (forall w, f (- w)%C = f w) /\ (forall w, fst w <> 0 -> f (Cconj w) = Cconj (f w)).

Lemma symmetric_mod f w : symmetric f -> Cmod (f (- w)%C) = Cmod (f w) /\ Cmod (f (Cconj w)) = Cmod (f w) /\ Cmod (f (- Cconj w)%C) = Cmod (f w).
Proof.
  intros [He Hc]. rewrite !He. assert (K : Cmod (f (Cconj w)) = Cmod (f w)); [|auto].
  destruct (Req_dec (fst w) 0) as [E|E].
  - replace (Cconj w) with (- w)%C; [now rewrite He|]. destruct w as [a b]. cbn in *. subst. unfold Cconj, Copp. cbn. f_equal; ring.
  - rewrite Hc by auto. apply Cmod_conj.
Qed.

Lemma exceeds_false x y : x < y -> exceeds x y = false.
Proof. intros. unfold exceeds. destruct (Rlt_dec y x); auto. lra. Qed.

Lemma find_thermal_pole_symmetric f : symmetric f -> find_thermal_pole f = NoRoot \/ exists p z, find_thermal_pole f = Found (p, z).
Proof.
  intros Hs. unfold find_thermal_pole. destruct (pole_find_root f) as [|[[r v]|]] eqn:E.
  - now apply pole_find_root_ret in E.
  - right. apply pole_find_root_small in E. destruct (symmetric_mod f r Hs) as (A & B & D).
    rewrite A, B, D, exceeds_false by auto. cbn [orb]. do 2 eexists. reflexivity.
  - auto.
Qed.

Lemma conj_iroot r : (Ci * Cconj (r * Ci))%C = Cconj r.
Proof. destruct r as [a b]. unfold Ci, Cconj, Cmult. cbn. f_equal; ring. Qed.

(** What a reported thermal pole is. *)
Lemma find_thermal_pole_found f p z : find_thermal_pole f = Found (p, z) ->
  exists root, Cmod (f root) < TOL /\ Cmod (f (- root)%C) <= TOL /\ Cmod (f (Ci * p)%C) <= TOL /\ Cmod (f (- (Ci * p))%C) <= TOL /\
    (Ci * p)%C = Cconj root /\ fst p = - snd root /\ snd p = - fst root /\
    z = snd (thermal_residue compute_residue f root) / fst (thermal_residue compute_residue f root).
Proof.
  unfold find_thermal_pole. destruct (pole_find_root f) as [|[[r v]|]] eqn:E; try discriminate.
  assert (X : forall x y, exceeds x y = false -> x <= y) by (unfold exceeds; intros x y; destruct (Rlt_dec y x); [discriminate|lra]).
  destruct (exceeds (Cmod (f (- r)%C)) TOL) eqn:E1; cbn [orb]; [discriminate|].
  destruct (exceeds (Cmod (f (Cconj r))) TOL) eqn:E2; cbn [orb]; [discriminate|].
  destruct (exceeds (Cmod (f (- Cconj r)%C)) TOL) eqn:E3; cbn [orb]; [discriminate|].
  intros H. assert (Hp : Cconj (r * Ci) = p) by (now inversion H).
  assert (Hz : z = snd (thermal_residue compute_residue f r) / fst (thermal_residue compute_residue f r)) by (now inversion H). clear H.
  exists r. assert (K : (Ci * p)%C = Cconj r) by (rewrite <- Hp; apply conj_iroot).
  rewrite K. apply X in E1, E2, E3. split; [now apply pole_find_root_small in E|]. do 3 (split; auto). split; auto.
  rewrite <- Hp. destruct r as [a b]. cbn. split; [ring|]. split; [ring|auto].
Qed.

Lemma find_pole_found f p z : find_pole f = Found (p, z) ->
  Cmod (f (- (p / RtoC MG * (p / RtoC MG)))%C) < TOL /\ 0 <= fst p /\
  z = snd (vacuum_residue compute_residue f (- (p / RtoC MG * (p / RtoC MG)))%C) / fst (vacuum_residue compute_residue f (- (p / RtoC MG * (p / RtoC MG)))%C).
Proof.
  unfold find_pole. destruct (pole_find_root f) as [|[[r v]|]] eqn:E; try discriminate.
  intros H. assert (Hp : (Csqrt (- r) * RtoC MG)%C = p) by (now inversion H).
  assert (Hz : z = snd (vacuum_residue compute_residue f r) / fst (vacuum_residue compute_residue f r)) by (now inversion H). clear H.
  pose proof MG_pos as G.
  assert (K : (- (p / RtoC MG * (p / RtoC MG)))%C = r).
  { rewrite <- Hp. replace (Csqrt (- r) * RtoC MG / RtoC MG)%C with (Csqrt (- r)).
    - rewrite Csqrt_sqr. ring.
    - field. apply RtoC_neq. lra. }
  rewrite K. split; [now apply pole_find_root_small in E|]. split; auto.
  rewrite <- Hp. pose proof (Csqrt_re_nonneg (- r)%C). destruct (Csqrt (- r)%C) as [a b]. cbn in *. nra.
Qed.

(** ** Residues *)
Lemma simple_pole_ext f h z0 c : (exists d, 0 < d /\ forall w, 0 < Cmod (w - z0)%C < d -> f w = h w) -> simple_pole f z0 c -> simple_pole h z0 c.
Proof.
  intros (d & Hd & E) H e He. destruct (H e He) as (d' & Hd' & K). exists (Rmin d d').
  split; [now apply Rmin_pos|]. intros w [W1 W2]. rewrite <- E; [apply K|]; split; auto; eapply Rlt_le_trans; eauto using Rmin_l, Rmin_r.
Qed.

Lemma Cinv_0 : (/ RtoC 0)%C = RtoC 0.
Proof. unfold Cinv, RtoC. cbn. f_equal; unfold Rdiv; ring. Qed.

Lemma residue_cancel (a x : C) : a <> RtoC 0 -> (a * / (a * x))%C = (/ x)%C.
Proof.
  intros Ha. destruct (Ceq_dec x (RtoC 0)) as [->|Hx].
  - replace (a * RtoC 0)%C with (RtoC 0) by ring. rewrite Cinv_0. ring.
  - field. auto.
Qed.

(** If A has the limit a and B the limit b, A * B has the limit a * b. *)
Definition Clim (F : C -> C) (z0 l : C) := forall e, 0 < e -> exists d, 0 < d /\ forall w, 0 < Cmod (w - z0)%C < d -> Cmod (F w - l)%C < e.
Lemma Clim_mult A B z0 a b : Clim A z0 a -> Clim B z0 b -> Clim (fun w => A w * B w)%C z0 (a * b)%C.
Proof.
  intros HA HB e He. pose (e1 := Rmin 1 (e / (2 + 2 * Cmod a + 2 * Cmod b))).
  pose proof (Cmod_ge_0 a) as Pa. pose proof (Cmod_ge_0 b) as Pb.
  assert (He1 : 0 < e1) by (apply Rmin_pos; [lra|apply Rdiv_lt_0_compat; lra]).
  assert (L1 : e1 <= 1) by apply Rmin_l.
  assert (L2 : e1 * (2 + 2 * Cmod a + 2 * Cmod b) <= e).
  { apply Rle_trans with (e / (2 + 2 * Cmod a + 2 * Cmod b) * (2 + 2 * Cmod a + 2 * Cmod b)).
    - apply Rmult_le_compat_r; [lra|apply Rmin_r].
    - right. field. lra. }
  destruct (HA e1 He1) as (d1 & D1 & K1). destruct (HB e1 He1) as (d2 & D2 & K2).
  exists (Rmin d1 d2). split; [now apply Rmin_pos|]. intros w [W1 W2].
  assert (X1 : Cmod (A w - a)%C < e1) by (apply K1; split; auto; eapply Rlt_le_trans; eauto using Rmin_l).
  assert (X2 : Cmod (B w - b)%C < e1) by (apply K2; split; auto; eapply Rlt_le_trans; eauto using Rmin_r).
  replace (A w * B w - a * b)%C with ((A w - a) * (B w - b) + a * (B w - b) + (A w - a) * b)%C by ring.
  pose proof (Cmod_ge_0 (A w - a)%C). pose proof (Cmod_ge_0 (B w - b)%C).
  eapply Rle_lt_trans; [apply Cmod_triangle|]. eapply Rle_lt_trans; [apply Rplus_le_compat_r, Cmod_triangle|].
  rewrite !Cmod_mult. nra.
Qed.
Lemma Clim_id z0 : Clim (fun w => w) z0 z0.
Proof. intros e He. exists e. split; auto. tauto. Qed.
Lemma Clim_const z0 a : Clim (fun _ => a) z0 a.
Proof. intros e He. exists 1. split; [lra|]. intros w _. replace (a - a)%C with (RtoC 0) by ring. rewrite Cmod_0. auto. Qed.
Lemma Clim_plus A B z0 a b : Clim A z0 a -> Clim B z0 b -> Clim (fun w => A w + B w)%C z0 (a + b)%C.
Proof.
  intros HA HB e He. destruct (HA (e / 2)) as (d1 & D1 & K1); [lra|]. destruct (HB (e / 2)) as (d2 & D2 & K2); [lra|].
  exists (Rmin d1 d2). split; [now apply Rmin_pos|]. intros w [W1 W2].
  assert (X1 : Cmod (A w - a)%C < e / 2) by (apply K1; split; auto; eapply Rlt_le_trans; eauto using Rmin_l).
  assert (X2 : Cmod (B w - b)%C < e / 2) by (apply K2; split; auto; eapply Rlt_le_trans; eauto using Rmin_r).
  replace (A w + B w - (a + b))%C with ((A w - a) + (B w - b))%C by ring.
  eapply Rle_lt_trans; [apply Cmod_triangle|]. lra.
Qed.
Lemma Clim_inv A z0 a : a <> RtoC 0 -> Clim A z0 a -> Clim (fun w => / A w)%C z0 (/ a)%C.
Proof.
  intros Na HA e He. assert (Pa : 0 < Cmod a) by now apply Cmod_gt_0.
  pose (e1 := Rmin (Cmod a / 2) (e * (Cmod a * Cmod a) / 2)).
  assert (He1 : 0 < e1) by (apply Rmin_pos; [lra|]; apply Rdiv_lt_0_compat; [|lra]; apply Rmult_lt_0_compat; nra).
  destruct (HA e1 He1) as (d1 & D1 & K1). exists d1. split; auto. intros w W. specialize (K1 w W).
  assert (L1 : e1 <= Cmod a / 2) by apply Rmin_l. assert (L2 : e1 <= e * (Cmod a * Cmod a) / 2) by apply Rmin_r.
  assert (U : Cmod a / 2 < Cmod (A w)).
  { pose proof (Cmod_triangle (A w) (a - A w)%C) as T. replace (A w + (a - A w))%C with a in T by ring.
    replace (a - A w)%C with (- (A w - a))%C in T by ring. rewrite Cmod_opp in T. lra. }
  assert (NA : A w <> RtoC 0) by (apply Cmod_gt_0; lra).
  replace (/ A w - / a)%C with (- (A w - a) / (A w * a))%C by (field; auto).
  rewrite Cmod_div by (now apply Cmult_neq_0). rewrite Cmod_opp, Cmod_mult.
  assert (0 < Cmod (A w) * Cmod a) by (apply Rmult_lt_0_compat; lra).
  apply (Rmult_lt_reg_r (Cmod (A w) * Cmod a)); auto.
  unfold Rdiv. rewrite Rmult_assoc, Rinv_l, Rmult_1_r by lra.
  assert (e * (Cmod a / 2 * Cmod a) < e * (Cmod (A w) * Cmod a)) by (apply Rmult_lt_compat_l; auto; apply Rmult_lt_compat_r; auto). nra.
Qed.
Lemma Clim_ext A B z0 l : (exists d, 0 < d /\ forall w, 0 < Cmod (w - z0)%C < d -> A w = B w) -> Clim A z0 l -> Clim B z0 l.
Proof.
  intros (d & Hd & E) H e He. destruct (H e He) as (d' & Hd' & K). exists (Rmin d d').
  split; [now apply Rmin_pos|]. intros w [W1 W2]. rewrite <- E; [apply K|]; split; auto; eapply Rlt_le_trans; eauto using Rmin_l, Rmin_r.
Qed.
(** Substitution w -> w^2 near a non-zero point. *)
Lemma Clim_square A z0 l : z0 <> RtoC 0 -> Clim A (z0 * z0)%C l -> Clim (fun w => A (w * w)%C) z0 l.
Proof.
  intros Nz H e He. destruct (H e He) as (d & Hd & K). assert (P : 0 < Cmod z0) by now apply Cmod_gt_0.
  pose (d1 := Rmin (Cmod z0) (d / (3 * Cmod z0))).
  assert (D1 : 0 < d1) by (apply Rmin_pos; [lra|apply Rdiv_lt_0_compat; lra]).
  assert (L1 : d1 <= Cmod z0) by apply Rmin_l.
  assert (L2 : d1 * (3 * Cmod z0) <= d).
  { apply Rle_trans with (d / (3 * Cmod z0) * (3 * Cmod z0)); [apply Rmult_le_compat_r; [lra|apply Rmin_r]|right; field; lra]. }
  exists d1. split; auto. intros w [W1 W2]. apply K.
  replace (w * w - z0 * z0)%C with ((w - z0) * (w + z0))%C by ring. rewrite Cmod_mult.
  assert (N : (w + z0)%C <> RtoC 0).
  { intros E. assert (w = (- z0)%C) by (replace w with (w + z0 - z0)%C by ring; rewrite E; ring). subst w.
    replace (- z0 - z0)%C with (- (RtoC 2 * z0))%C in W2 by ring. rewrite Cmod_opp, Cmod_mult, Cmod_R, Rabs_pos_eq in W2 by lra. lra. }
  assert (0 < Cmod (w + z0)%C) by now apply Cmod_gt_0.
  assert (Cmod (w + z0)%C < 3 * Cmod z0).
  { replace (w + z0)%C with ((w - z0) + RtoC 2 * z0)%C by ring. eapply Rle_lt_trans; [apply Cmod_triangle|].
    rewrite Cmod_mult, Cmod_R, Rabs_pos_eq by lra. lra. }
  split; [now apply Rmult_lt_0_compat|]. nra.
Qed.

Lemma near_nonzero z0 : z0 <> RtoC 0 -> exists d, 0 < d /\ forall w, 0 < Cmod (w - z0)%C < d -> w <> RtoC 0 /\ (w + z0)%C <> RtoC 0.
Proof.
  intros N. assert (P : 0 < Cmod z0) by now apply Cmod_gt_0. exists (Cmod z0). split; auto. intros w [W1 W2]. split; intros E.
  - subst w. replace (RtoC 0 - z0)%C with (- z0)%C in W2 by ring. rewrite Cmod_opp in W2. lra.
  - assert (w = (- z0)%C) by (replace w with (w + z0 - z0)%C by ring; rewrite E; ring). subst w.
    replace (- z0 - z0)%C with (- (RtoC 2 * z0))%C in W2 by ring. rewrite Cmod_opp, Cmod_mult, Cmod_R, Rabs_pos_eq in W2 by lra. lra.
Qed.

(** Vacuum: the residue of 1/F divided by the root is that of 1/(s F). *)
Lemma pole_of_inverse F s0 c : s0 <> RtoC 0 -> simple_pole (fun s => / (s * F s))%C s0 c -> simple_pole (fun s => RtoC 1 / F s)%C s0 (c * s0)%C.
Proof.
  intros N H. apply (Clim_ext (fun w => ((w - s0) * / (w * F w)) * w)%C).
  - destruct (near_nonzero s0 N) as (d & Hd & K). exists d. split; auto. intros w W. destruct (K w W) as [Nw _].
    rewrite <- (residue_cancel w (F w) Nw) at 1 || idtac. unfold Cdiv. rewrite <- (residue_cancel w (F w) Nw). ring.
  - now apply Clim_mult; [|apply Clim_id].
Qed.

Lemma vacuum_residue_limit F s0 c : s0 <> RtoC 0 -> c <> RtoC 0 -> simple_pole (fun s => / (s * F s))%C s0 c ->
  Clim0 (fun eps => vacuum_residue (fun h z => compute_residue_with_eps h z eps) F s0) c.
Proof.
  intros N Nc H. pose proof (residue_limit _ _ _ (Cmult_neq_0 _ _ Nc N) (pole_of_inverse F s0 c N H)) as L.
  intros e He. assert (P : 0 < Cmod s0) by now apply Cmod_gt_0. destruct (L (e * Cmod s0)) as (d & Hd & K); [nra|].
  exists d. split; auto. intros x Hx. specialize (K x Hx). unfold vacuum_residue.
  match goal with |- Cmod (?X / s0 - c)%C < e => set (Y := X) in * end. change (Cmod (Y - c * s0)%C < e * Cmod s0) in K.
  replace (Y / s0 - c)%C with ((Y - c * s0) / s0)%C by (field; auto). rewrite Cmod_div by auto.
  apply (Rmult_lt_reg_r (Cmod s0)); auto. unfold Rdiv. rewrite Rmult_assoc, Rinv_l, Rmult_1_r by lra. auto.
Qed.

Lemma Csqrt_sq_pm w : Csqrt (w * w) = w \/ Csqrt (w * w) = (- w)%C.
Proof.
  pose proof (Csqrt_sqr (w * w)%C) as E. set (x := Csqrt (w * w)) in *.
  assert (Z : ((x - w) * (x + w))%C = RtoC 0) by (replace ((x - w) * (x + w))%C with (x * x - w * w)%C by ring; rewrite E; ring).
  destruct (Ceq_dec (x - w)%C (RtoC 0)) as [A|A].
  - left. replace x with (x - w + w)%C by ring. rewrite A. ring.
  - right. destruct (Ceq_dec (x + w)%C (RtoC 0)) as [B|B].
    + replace x with (x + w - w)%C by ring. rewrite B. ring.
    + exfalso. now apply (Cmult_neq_0 _ _ A B).
Qed.

Lemma even_sqrt (f : C -> C) : (forall w, f (- w)%C = f w) -> forall w, f (Csqrt (w * w)) = f w.
Proof. intros He w. destruct (Csqrt_sq_pm w) as [->| ->]; auto. Qed.

(** Thermal: a pole in om turned into a pole in s = om^2. *)
Lemma pole_of_inverse_sq f om0 c : (forall w, f (- w)%C = f w) -> om0 <> RtoC 0 ->
  simple_pole (fun s => / (s * f (Csqrt s)))%C (om0 * om0)%C c -> simple_pole (fun w => RtoC 1 / f w)%C om0 (c * om0 / RtoC 2)%C.
Proof.
  intros He N H. assert (N2 : RtoC 2 <> RtoC 0) by (apply RtoC_neq; lra).
  apply (Clim_ext (fun w => ((w * w - om0 * om0) * / (w * w * f (Csqrt (w * w)))) * (w * w * / (w + om0)))%C).
  - destruct (near_nonzero om0 N) as (d & Hd & K). exists d. split; auto. intros w W. destruct (K w W) as [Nw Np].
    rewrite even_sqrt by auto. unfold Cdiv. rewrite <- (residue_cancel (w * w)%C (f w)) by (now apply Cmult_neq_0).
    generalize (/ (w * w * f w))%C. intros X. field. auto.
  - replace (c * om0 / RtoC 2)%C with (c * (om0 * om0 * / (om0 + om0)))%C.
    + apply Clim_mult.
      * apply (Clim_square (fun s => (s - om0 * om0) * / (s * f (Csqrt s)))%C om0 c N H).
      * apply Clim_mult; [apply Clim_mult; apply Clim_id|]. apply Clim_inv.
        -- replace (om0 + om0)%C with (RtoC 2 * om0)%C by ring. now apply Cmult_neq_0.
        -- apply Clim_plus; [apply Clim_id|apply Clim_const].
    + replace (om0 + om0)%C with (RtoC 2 * om0)%C by ring. field. auto.
Qed.

Lemma thermal_residue_limit f om0 c : (forall w, f (- w)%C = f w) -> om0 <> RtoC 0 -> c <> RtoC 0 ->
  simple_pole (fun s => / (s * f (Csqrt s)))%C (om0 * om0)%C c ->
  Clim0 (fun eps => thermal_residue (fun h z => compute_residue_with_eps h z eps) f om0) (Cconj c).
Proof.
  intros Ev N Nc H. assert (N2 : RtoC 2 <> RtoC 0) by (apply RtoC_neq; lra).
  assert (Nh : (c * om0 / RtoC 2)%C <> RtoC 0).
  { unfold Cdiv. apply Cmult_neq_0; [now apply Cmult_neq_0|]. intros Z. apply (f_equal (fun x => x * RtoC 2)%C) in Z. rewrite Cinv_l in Z by auto. replace (RtoC 0 * RtoC 2)%C with (RtoC 0) in Z by ring. apply RtoC_inj in Z; lra. }
  pose proof (residue_limit _ _ _ Nh (pole_of_inverse_sq f om0 c Ev N H)) as L.
  intros e He. assert (P : 0 < Cmod om0) by now apply Cmod_gt_0. destruct (L (e * Cmod om0 / 2)) as (d & Hd & K); [nra|].
  exists d. split; auto. intros x Hx. specialize (K x Hx). unfold thermal_residue.
  match goal with |- Cmod (Cconj (?X * _ / om0) - _)%C < e => set (Y := X) in * end. change (Cmod (Y - c * om0 / RtoC 2)%C < e * Cmod om0 / 2) in K.
  rewrite <- conj_minus, Cmod_conj.
  replace (Y * RtoC 2 / om0 - c)%C with ((Y - c * om0 / RtoC 2) * RtoC 2 / om0)%C by (field; auto). rewrite Cmod_div, Cmod_mult, Cmod_R, Rabs_pos_eq by (auto; lra).
  apply (Rmult_lt_reg_r (Cmod om0)); auto. unfold Rdiv. rewrite Rmult_assoc, Rinv_l, Rmult_1_r by lra. lra.
Qed.
