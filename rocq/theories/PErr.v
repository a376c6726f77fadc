(** * Propagation of quadrature errors to dressing functions and propagators *)
From Coq Require Import Reals Lra Lia List Psatz.
From Coquelicot Require Import Coquelicot.
From Verif Require Import Num CField MConsts MVacuum MThermal MPolar MDress MUtils MTc MPhase SpecInt SpecDress SpecErr PCplx PVac PDress PInt PTherm PColdFin.
Import List ListNotations.
Open Scope R_scope.

(** ** Weighted sums *)
Lemma weight_nonneg {A} (l : list (R * A)) : 0 <= weight l.
Proof. induction l as [|x l IH]; cbn [weight fold_right]; [lra|]. fold (weight l). pose proof (Rabs_pos (fst x)). lra. Qed.
Lemma wsum_C_err lx ly eps : map fst lx = map fst ly -> Forall2 (fun a b : R * C => Cmod (snd a - snd b) <= eps) lx ly ->
  Cmod (wsum_C lx - wsum_C ly) <= weight lx * eps.
Proof.
  intros E H. induction H as [|[w a] [w' b] lx ly H1 H2 IH].
  - cbn [wsum_C weight fold_right]. replace (RtoC 0 - RtoC 0)%C with (RtoC 0) by ring. rewrite Cmod_0. lra.
  - cbn [map fst snd] in *. injection E as -> E. rewrite !wsum_C_cons. cbn [fst snd]. cbn [weight fold_right fst]. fold (weight lx).
    replace (RtoC w' * a + wsum_C lx - (RtoC w' * b + wsum_C ly))%C with (RtoC w' * (a - b) + (wsum_C lx - wsum_C ly))%C by ring.
    eapply Rle_trans; [apply Cmod_triangle|]. rewrite Cmod_mult, Cmod_R, Rmult_plus_distr_r. apply Rplus_le_compat; [|auto].
    apply Rmult_le_compat_l; [apply Rabs_pos|exact H1].
Qed.
Lemma wsum_R_err lx ly eps : map fst lx = map fst ly -> Forall2 (fun a b : R * R => Rabs (snd a - snd b) <= eps) lx ly ->
  Rabs (wsum_R lx - wsum_R ly) <= weight lx * eps.
Proof.
  intros E H. induction H as [|[w a] [w' b] lx ly H1 H2 IH].
  - cbn [wsum_R weight fold_right]. rewrite Rminus_0_r, Rabs_R0. lra.
  - cbn [map fst snd] in *. injection E as -> E. rewrite !wsum_R_cons. cbn [fst snd]. cbn [weight fold_right fst]. fold (weight lx).
    replace (w' * a + wsum_R lx - (w' * b + wsum_R ly)) with (w' * (a - b) + (wsum_R lx - wsum_R ly)) by ring.
    eapply Rle_trans; [apply Rabs_triang|]. rewrite Rabs_mult, Rmult_plus_distr_r. apply Rplus_le_compat; [|auto].
    apply Rmult_le_compat_l; [apply Rabs_pos|exact H1].
Qed.

Lemma Forall2_of {A B} (S Q : A -> B -> Prop) (P : A -> Prop) (P' : B -> Prop) X Y :
  Forall2 S X Y -> Forall P X -> Forall P' Y -> (forall x y, S x y -> P x -> P' y -> Q x y) -> Forall2 Q X Y.
Proof. intros H. induction H; intros F F' I; constructor; inversion F; inversion F'; subst; auto. Qed.

(** ** Inverse dressing functions *)
Notation c0 := (16 * PI * PI / 3).
Lemma c0_pos : 0 < c0.
Proof. pose proof PI_RGT_0. nra. Qed.
Definition err_C (sd : C) (x y : R * list (R * C) * C * C) : Prop :=
  let '(_, lx, ix, _) := x in let '(_, ly, iy, _) := y in
  forall eps, Forall2 (fun a b : R * C => Cmod (snd a - snd b) <= eps) lx ly -> Cmod (ix - iy) <= c0 / Cmod sd * weight lx * eps.
Definition err_R (sd : R) (x y : R * list (R * R) * R * R) : Prop :=
  let '(_, lx, ix, _) := x in let '(_, ly, iy, _) := y in
  forall eps, Forall2 (fun a b : R * R => Rabs (snd a - snd b) <= eps) lx ly -> Rabs (ix - iy) <= c0 / sd * weight lx * eps.
Definition same_shape {A B : Type} (x y : R * list (R * A) * B * B) : Prop :=
  let '(sx, lx, _, vx) := x in let '(sy, ly, _, vy) := y in sx = sy /\ Rabs sx = 1 /\ map fst lx = map fst ly /\ vx = vy.

Lemma err_C_of sd x y : sd <> RtoC 0 -> same_shape x y ->
  (let '(sg, l, i, v) := x in i = (v + RtoC (sg * c0) / sd * wsum_C l)%C) -> (let '(sg, l, i, v) := y in i = (v + RtoC (sg * c0) / sd * wsum_C l)%C) -> err_C sd x y.
Proof.
  destruct x as [[[sx lx] ix] vx], y as [[[sy ly] iy] vy]. intros Hsd (<- & Hs & Hm & <-) -> -> eps H.
  replace (vx + RtoC (sx * c0) / sd * wsum_C lx - (vx + RtoC (sx * c0) / sd * wsum_C ly))%C with (RtoC (sx * c0) / sd * (wsum_C lx - wsum_C ly))%C by ring.
  rewrite Cmod_mult. unfold Cdiv. rewrite Cmod_mult, Cmod_inv, Cmod_R by auto. rewrite Rabs_mult, Hs, Rmult_1_l, (Rabs_pos_eq c0) by (pose proof c0_pos; lra).
  rewrite (Rmult_assoc _ (weight lx) eps). apply Rmult_le_compat_l; [|now apply wsum_C_err].
  apply Rmult_le_pos; [pose proof c0_pos; lra|]. left. apply Rinv_0_lt_compat, Cmod_gt_0; auto.
Qed.
Lemma err_R_of sd x y : 0 < sd -> same_shape x y ->
  (let '(sg, l, i, v) := x in i = v + sg * c0 / sd * wsum_R l) -> (let '(sg, l, i, v) := y in i = v + sg * c0 / sd * wsum_R l) -> err_R sd x y.
Proof.
  destruct x as [[[sx lx] ix] vx], y as [[[sy ly] iy] vy]. intros Hsd (<- & Hs & Hm & <-) -> -> eps H.
  replace (vx + sx * c0 / sd * wsum_R lx - (vx + sx * c0 / sd * wsum_R ly)) with (sx * (c0 / sd) * (wsum_R lx - wsum_R ly)) by (unfold Rdiv; ring).
  assert (0 < c0 / sd) by (apply Rdiv_lt_0_compat; auto using c0_pos).
  rewrite !Rabs_mult, Hs, Rmult_1_l, (Rabs_pos_eq (c0 / sd)) by lra. rewrite (Rmult_assoc _ (weight lx) eps). apply Rmult_le_compat_l; [lra|now apply wsum_R_err].
Qed.
Ltac shape := repeat (apply Forall2_cons || apply Forall2_nil); cbn [same_shape];
  (split; [reflexivity|split; [first [apply Rabs_R1|rewrite Rabs_left; lra]|split; [cbn [map fst]; rewrite ?map_map; reflexivity|reflexivity]]]).
Lemma gen_shape {T} {NT : Num T} J K g (om : T) p nc m mq beta mu g0 f0 quarks :
  Forall2 same_shape (gen_reductions J g om p nc m mq beta mu g0 f0 quarks) (gen_reductions K g om p nc m mq beta mu g0 f0 quarks).
Proof. unfold gen_reductions; cbv zeta. shape. Qed.
Lemma zp_shape {T} {NT : Num T} J K g (om : T) nc m mq beta mu g0 f0 quarks :
  Forall2 same_shape (zp_reductions J g om nc m mq beta mu g0 f0 quarks) (zp_reductions K g om nc m mq beta mu g0 f0 quarks).
Proof. unfold zp_reductions; cbv zeta. shape. Qed.
Lemma zm_shape J K g p nc m mq beta mu g0 f0 quarks :
  Forall2 same_shape (zm_reductions J g p nc m mq beta mu g0 f0 quarks) (zm_reductions K g p nc m mq beta mu g0 f0 quarks).
Proof. unfold zm_reductions; cbv zeta. shape. Qed.

Lemma inv_err J K g nc m mq beta mu g0 f0 quarks :
  (forall (om : R) p, om * om + p * p <> 0 -> Forall2 (err_C (RtoC (om * om + p * p)))
     (gen_reductions J g om p nc m mq beta mu g0 f0 quarks) (gen_reductions K g om p nc m mq beta mu g0 f0 quarks)) /\
  (forall (om : C) p, (om * om + RtoC (p * p))%C <> RtoC 0 -> Forall2 (err_C (om * om + RtoC (p * p))%C)
     (gen_reductions J g om p nc m mq beta mu g0 f0 quarks) (gen_reductions K g om p nc m mq beta mu g0 f0 quarks)) /\
  (forall om : R, om <> 0 -> Forall2 (err_C (RtoC (om * om)))
     (zp_reductions J g om nc m mq beta mu g0 f0 quarks) (zp_reductions K g om nc m mq beta mu g0 f0 quarks)) /\
  (forall om : C, om <> RtoC 0 -> Forall2 (err_C (om * om)%C)
     (zp_reductions J g om nc m mq beta mu g0 f0 quarks) (zp_reductions K g om nc m mq beta mu g0 f0 quarks)) /\
  (forall p, p <> 0 -> Forall2 (err_R (p * p))
     (zm_reductions J g p nc m mq beta mu g0 f0 quarks) (zm_reductions K g p nc m mq beta mu g0 f0 quarks)).
Proof.
  assert (N : forall x, x <> 0 -> RtoC x <> RtoC 0) by (intros x Hx E; apply Hx; now apply RtoC_inj).
  split; [|split; [|split; [|split]]].
  - intros om p H. eapply Forall2_of; [apply gen_shape|apply (gen_reductions_R J); exact H|apply (gen_reductions_R K); exact H|]. intros x y S X Y. apply err_C_of; auto.
  - intros om p H. eapply Forall2_of; [apply gen_shape|apply (gen_reductions_C J); exact H|apply (gen_reductions_C K); exact H|]. intros x y S X Y. apply err_C_of; auto.
  - intros om H. eapply Forall2_of; [apply zp_shape|apply (zp_reductions_R J); exact H|apply (zp_reductions_R K); exact H|]. intros x y S X Y. apply err_C_of; auto.
  - intros om H. eapply Forall2_of; [apply zp_shape|apply (zp_reductions_C J); exact H|apply (zp_reductions_C K); exact H|]. intros x y S X Y. apply err_C_of; auto. now apply Cmult_neq_0.
  - intros p H. eapply Forall2_of; [apply zm_shape|apply (zm_reductions_R J); exact H|apply (zm_reductions_R K); exact H|]. intros x y S X Y. apply err_R_of; auto. nra.
Qed.

(** ** Dressing functions and propagators *)
Lemma inv_dev_C (a b d : C) : (d * a)%C = RtoC 1 -> (forall x, (x * b)%C = RtoC 1 -> Cmod (x - d) = Cmod (b - a) / (Cmod a * Cmod b)).
Proof.
  intros Hd x Hx.
  assert (Na : a <> RtoC 0) by (intros ->; rewrite Cmult_0_r in Hd; apply RtoC_inj in Hd; lra).
  assert (Nb : b <> RtoC 0) by (intros ->; rewrite Cmult_0_r in Hx; apply RtoC_inj in Hx; lra).
  assert (E : (x - d)%C = (- (b - a) / (a * b))%C).
  { replace x with (x * b / b)%C by (field; auto). replace d with (d * a / a)%C by (field; auto). rewrite Hx, Hd. field; auto. }
  rewrite E. unfold Cdiv. rewrite Cmod_mult, Cmod_opp, Cmod_inv by (now apply Cmult_neq_0). now rewrite Cmod_mult.
Qed.
Definition dev3_C (sd : C) (x y : C * C * C) : Prop :=
  let '(ix, dx, px) := x in let '(iy, dy, py) := y in
  forall delta, Cmod (ix - iy) <= delta -> delta < Cmod iy ->
    ix <> RtoC 0 /\ Cmod (dx - dy) <= delta / (Cmod iy * (Cmod iy - delta)) /\ Cmod (px - py) <= delta / (Cmod iy * (Cmod iy - delta)) / Cmod sd.
Definition dev3_R (sd : R) (x y : R * R * R) : Prop :=
  let '(ix, dx, px) := x in let '(iy, dy, py) := y in
  forall delta, Rabs (ix - iy) <= delta -> delta < Rabs iy ->
    ix <> 0 /\ Rabs (dx - dy) <= delta / (Rabs iy * (Rabs iy - delta)) /\ Rabs (px - py) <= delta / (Rabs iy * (Rabs iy - delta)) / sd.
Lemma frac_le a b d e : 0 <= e <= d -> 0 < a -> 0 < a - d <= b -> e / (a * b) <= d / (a * (a - d)).
Proof.
  intros He Ha Hb. apply Rle_trans with (d / (a * b)).
  - apply Rmult_le_compat_r; [|lra]. left. apply Rinv_0_lt_compat. nra.
  - apply Rmult_le_compat_l; [lra|]. apply Rinv_le_contravar; nra.
Qed.
Lemma dev3_C_of sd x y : sd <> RtoC 0 ->
  (let '(i, d, pr) := x in i <> RtoC 0 -> (d * i)%C = RtoC 1 /\ (sd * pr)%C = d) ->
  (let '(i, d, pr) := y in i <> RtoC 0 -> (d * i)%C = RtoC 1 /\ (sd * pr)%C = d) -> dev3_C sd x y.
Proof.
  destruct x as [[ix dx] px], y as [[iy dy] py]. intros Hsd X Y delta H1 H2.
  pose proof (Cmod_ge_0 (ix - iy)%C) as P.
  assert (L : Cmod iy - delta <= Cmod ix).
  { pose proof (Cmod_triangle ix (iy - ix)%C) as T. replace (ix + (iy - ix))%C with iy in T by ring.
    assert (Cmod (iy - ix) = Cmod (ix - iy)) by (rewrite <- Cmod_opp; f_equal; ring). lra. }
  assert (Ny : iy <> RtoC 0) by (intros E; rewrite E, Cmod_0 in H2; lra).
  assert (Nx : ix <> RtoC 0) by (intros E; rewrite E, Cmod_0 in L; lra).
  destruct (X Nx) as [X1 X2], (Y Ny) as [Y1 Y2]. split; [exact Nx|].
  assert (D : Cmod (dx - dy) <= delta / (Cmod iy * (Cmod iy - delta))).
  { rewrite (inv_dev_C iy ix dy Y1 dx X1). apply frac_le; lra. }
  split; [exact D|].
  assert (E : (dx - dy)%C = (sd * (px - py))%C) by (rewrite <- X2, <- Y2; ring).
  rewrite E, Cmod_mult in D. assert (0 < Cmod sd) by (apply Cmod_gt_0; auto).
  apply Rmult_le_reg_l with (Cmod sd); auto. eapply Rle_trans; [exact D|]. right. field. split; [lra|]. split; lra.
Qed.
Lemma dev3_R_of sd x y : 0 < sd ->
  (let '(i, d, pr) := x in i <> 0 -> d * i = 1 /\ sd * pr = d) ->
  (let '(i, d, pr) := y in i <> 0 -> d * i = 1 /\ sd * pr = d) -> dev3_R sd x y.
Proof.
  destruct x as [[ix dx] px], y as [[iy dy] py]. intros Hsd X Y delta H1 H2.
  assert (L : Rabs iy - delta <= Rabs ix).
  { pose proof (Rabs_triang ix (iy - ix)) as T. replace (ix + (iy - ix)) with iy in T by ring. rewrite (Rabs_minus_sym iy ix) in T. lra. }
  pose proof (Rabs_pos (ix - iy)) as P.
  assert (Ny : iy <> 0) by (intros E; rewrite E, Rabs_R0 in H2; lra).
  assert (Nx : ix <> 0) by (intros E; rewrite E, Rabs_R0 in L; lra).
  destruct (X Nx) as [X1 X2], (Y Ny) as [Y1 Y2]. split; [exact Nx|].
  assert (D : Rabs (dx - dy) <= delta / (Rabs iy * (Rabs iy - delta))).
  { assert (E : dx - dy = - (ix - iy) / (iy * ix)). { replace dx with (dx * ix / ix) by (field; auto). replace dy with (dy * iy / iy) by (field; auto). rewrite X1, Y1. field; auto. }
    rewrite E. unfold Rdiv at 1. rewrite Rabs_mult, Rabs_Ropp, Rabs_inv, Rabs_mult. apply frac_le; lra. }
  split; [exact D|].
  assert (E : dx - dy = sd * (px - py)) by (rewrite <- X2, <- Y2; ring).
  rewrite E, Rabs_mult, (Rabs_pos_eq sd) in D by lra.
  apply Rmult_le_reg_l with sd; auto. eapply Rle_trans; [exact D|]. right. field. split; [lra|]. split; lra.
Qed.
Lemma Forall_Forall2 {A B} (P : A -> Prop) (P' : B -> Prop) X Y : length X = length Y -> Forall P X -> Forall P' Y -> Forall2 (fun x y => P x /\ P' y) X Y.
Proof. revert Y. induction X as [|x X IH]; intros [|y Y] E F F'; try discriminate; constructor; inversion F; inversion F'; subst; auto. Qed.
Lemma fam_err J K g m mq beta mu g0 f0 cfg :
  (forall (om : R) p, om * om + p * p <> 0 -> Forall2 (dev3_C (RtoC (om * om + p * p)))
     (gen_families J g om p m mq beta mu g0 f0 cfg) (gen_families K g om p m mq beta mu g0 f0 cfg)) /\
  (forall (om : C) p, (om * om + RtoC (p * p))%C <> RtoC 0 -> Forall2 (dev3_C (om * om + RtoC (p * p))%C)
     (gen_families J g om p m mq beta mu g0 f0 cfg) (gen_families K g om p m mq beta mu g0 f0 cfg)) /\
  (forall om : R, om <> 0 -> Forall2 (dev3_C (RtoC (om * om)))
     (zp_families J g om m mq beta mu g0 f0 cfg) (zp_families K g om m mq beta mu g0 f0 cfg)) /\
  (forall om : C, om <> RtoC 0 -> Forall2 (dev3_C (om * om)%C)
     (zp_families J g om m mq beta mu g0 f0 cfg) (zp_families K g om m mq beta mu g0 f0 cfg)) /\
  (forall p, p <> 0 -> Forall2 (dev3_R (p * p))
     (zm_families J g p m mq beta mu g0 f0 cfg) (zm_families K g p m mq beta mu g0 f0 cfg)).
Proof.
  assert (N : forall x, x <> 0 -> RtoC x <> RtoC 0) by (intros x Hx E; apply Hx; now apply RtoC_inj).
  assert (G : forall A (Q : A -> A -> Prop) (P P' : A -> Prop) X Y, length X = length Y -> Forall P X -> Forall P' Y -> (forall x y, P x -> P' y -> Q x y) -> Forall2 Q X Y).
  { intros A Q P P' X Y L F F' I. eapply Forall2_of; [apply (Forall_Forall2 P P' X Y L F F')|exact F|exact F'|]. auto. }
  split; [|split; [|split; [|split]]].
  - intros om p H. eapply G; [reflexivity|apply (gen_families_R J); exact H|apply (gen_families_R K); exact H|]. intros x y X Y. apply dev3_C_of; auto.
  - intros om p H. eapply G; [reflexivity|apply (gen_families_C J); exact H|apply (gen_families_C K); exact H|]. intros x y X Y. apply dev3_C_of; auto.
  - intros om H. eapply G; [reflexivity|apply (zp_families_R J); exact H|apply (zp_families_R K); exact H|]. intros x y X Y. apply dev3_C_of; auto.
  - intros om H. eapply G; [reflexivity|apply (zp_families_C J); exact H|apply (zp_families_C K); exact H|]. intros x y X Y. apply dev3_C_of; auto. now apply Cmult_neq_0.
  - intros p H. eapply G; [reflexivity|apply (zm_families_ok J); exact H|apply (zm_families_ok K); exact H|]. intros x y X Y. apply dev3_R_of; auto. nra.
Qed.
