(** * Proofs about the fit of the phase boundary: the program *)
From Coq Require Import Reals List Lra Lia Arith ZArith Psatz FinFun.
From Coquelicot Require Import Coquelicot.
From Verif Require Import Num MConsts MVacuum MUtils MDress MTc MPhase MFit SpecConsts SpecTc SpecPhase SpecRun SpecFit PTc PTc2 PPhase PPhase2 PRun PRun2 PRun3 PFit.
Import List ListNotations.
Open Scope R_scope.

Lemma omap_pure {A B} (f : A -> outcome B) h l : (forall x, In x l -> f x = Ret (h x)) -> omap f l = Ret (map h l).
Proof. induction l as [|a l IH]; intros H; cbn [omap map]; auto. rewrite H by now left. cbn [obind]. rewrite IH by (intros; apply H; now right). reflexivity. Qed.

Definition hor {T} {N : ROrAD T} (mu : T) (l : list T) : T := fold_right (fun p res => ra_mult (ra_plus res p) mu) ra_zero l.
Lemma ppd_hor {T} {N : ROrAD T} (mu : T) p0 l : parametric_phase_diagram_gen mu (p0 :: l) = Ret (ra_plus (hor mu l) p0).
Proof. cbn [parametric_phase_diagram_gen]. rewrite <- fold_left_rev_right, rev_involutive. reflexivity. Qed.

Lemma ppd_R mu p : p <> [] -> parametric_phase_diagram_gen mu p = Ret (poly p mu).
Proof. exact (ppd_correct mu p). Qed.
Lemma adx_plus a b : ad_x (ad_plus a b) = ad_x a + ad_x b.
Proof. destruct a, b; reflexivity. Qed.
Lemma adx_mult a b : ad_x (ad_mult a b) = ad_x a * ad_x b.
Proof. destruct a, b; reflexivity. Qed.
Lemma ppd_value mu p : p <> [] -> exists r, parametric_phase_diagram_gen mu p = Ret r /\ ad_x r = poly (map ad_x p) (ad_x mu).
Proof.
  destruct p as [|p0 l]; [congruence|]. intros _. rewrite ppd_hor. eexists. split; [reflexivity|]. cbn [ra_plus ROrAD_AD]. rewrite adx_plus.
  cbn [map]. rewrite poly_cons'. assert (E : ad_x (hor mu l) = ad_x mu * poly (map ad_x l) (ad_x mu)); [|rewrite E; ring].
  induction l as [|b l IH]; cbn [hor fold_right map]; [rewrite poly_nil; cbn; ring|]. cbn [ra_mult ra_plus ROrAD_AD]. rewrite adx_mult, adx_plus.
  change (fold_right _ ra_zero l) with (hor mu l). rewrite IH, poly_cons'. ring.
Qed.
Lemma hor_moving mu p v : length v = length p -> p <> [] -> hor (AD1 mu 0) (moving p v) = AD1 (mu * poly p mu) (mu * poly v mu).
Proof.
  revert v. induction p as [|a p IH]; intros [|b v] L; try discriminate; [congruence|]. intros _. injection L as L.
  cbn [moving combine map hor fold_right fst snd]. change (fold_right _ ra_zero _) with (hor (AD1 mu 0) (moving p v)).
  rewrite !poly_cons'. destruct p as [|a' p].
  - destruct v; [|discriminate]. rewrite !poly_nil. cbn. f_equal; ring.
  - rewrite IH by (auto; discriminate). cbn [ra_mult ra_plus ROrAD_AD ad_mult ad_plus ad_make ad_order ad_x ad_dx ad_ddx Nat.max]. f_equal; ring.
Qed.
Lemma ppd_moving mu p v : p <> [] -> length v = length p -> parametric_phase_diagram_gen (AD1 mu 0) (moving p v) = Ret (AD1 (poly p mu) (poly v mu)).
Proof.
  destruct p as [|a p], v as [|b v]; try discriminate; [congruence|]. intros _ L. injection L as L. cbn [moving combine map fst snd].
  rewrite ppd_hor. fold (moving p v). rewrite !poly_cons'. destruct p as [|a' p].
  - destruct v; [|discriminate]. rewrite !poly_nil. cbn. f_equal. f_equal; ring.
  - rewrite hor_moving by (auto; discriminate). cbn [ra_mult ra_plus ROrAD_AD ad_mult ad_plus ad_make ad_order ad_x ad_dx ad_ddx Nat.max]. f_equal. f_equal; ring.
Qed.
Lemma model_moving mus p v : p <> [] -> length v = length p ->
  fit_model mus (moving p v) = Ret (Some (map (fun mu => AD1 (poly p mu) (poly v mu)) mus)).
Proof. intros H L. unfold fit_model. rewrite (omap_pure _ (fun mu => AD1 (poly p mu) (poly v mu))); [reflexivity|]. intros. now apply ppd_moving. Qed.
Lemma model_jacobian mus p j : (j < length p)%nat ->
  fit_model mus (moving p (unit_vector (length p) j)) = Ret (Some (map (fun mu => AD1 (poly p mu) (mu ^ j)) mus)).
Proof.
  intros H. rewrite model_moving by (rewrite ?unit_length; auto; intros ->; cbn in H; lia). do 2 f_equal. apply map_ext. intros mu. now rewrite uvec_poly.
Qed.
Lemma model_panics mus p : fit_model mus p = Panic <-> p = [] /\ mus <> [].
Proof.
  unfold fit_model. split.
  - destruct (omap _ mus) eqn:E; [intros _|discriminate]. apply omap_panic in E as (x & I & E). destruct p; [|discriminate]. split; auto. intros ->. easy.
  - intros [-> H]. destruct mus; [congruence|]. reflexivity.
Qed.

Lemma error_chi2 pts p e : p <> [] -> model_error pts fit_model p e <-> e = chi2 pts p.
Proof.
  intros H.
  assert (G : exists l, fit_model (map fst pts) (map AD0 p) = Ret (Some l) /\ length l = length pts /\ total (fun x => (snd (fst x) - ad_x (snd x)) ^ 2) (combine pts l) = chi2 pts p).
  { assert (X : forall mu, exists r, parametric_phase_diagram_gen (AD1 mu 0) (map AD0 p) = Ret r /\ ad_x r = poly p mu).
    { intros mu. destruct (ppd_value (AD1 mu 0) (map AD0 p)) as (r & E & V); [destruct p; [congruence|discriminate]|]. exists r. split; auto. rewrite V, map_map. cbn. now rewrite map_id. }
    unfold fit_model. induction pts as [|[m t] pts IH].
    - exists []. split; [reflexivity|]. split; reflexivity.
    - destruct IH as (l & E & L & S). destruct (omap (fun mu => parametric_phase_diagram_gen (AD1 mu 0) (map AD0 p)) (map fst pts)) as [|l'] eqn:O; [discriminate|].
      cbn [obind] in E. injection E as ->. destruct (X m) as (r & R1 & R2). exists (r :: l). cbn [map fst omap]. rewrite R1. cbn [obind]. rewrite O. cbn [obind].
      split; [reflexivity|]. split; [cbn; lia|]. cbn [combine]. rewrite total_cons, S. cbn [fst snd]. rewrite R2. reflexivity. }
  destruct G as (l & E & L & S). split.
  - intros (l' & E' & _ & ->). rewrite E in E'. injection E' as <-. exact S.
  - intros ->. exists l. auto.
Qed.
Lemma optimum_best pts n p : optimum pts fit_model (S n) p <-> best_fit pts n p.
Proof.
  split.
  - intros (L & e & E & M). split; auto. intros q Lq. apply error_chi2 in E; [|destruct p; [discriminate|congruence]]. destruct (M q Lq) as (e' & E' & H).
    apply error_chi2 in E'; [|destruct q; [discriminate|congruence]]. lra.
  - intros (L & M). split; auto. exists (chi2 pts p). split; [apply error_chi2; auto; destruct p; [discriminate|congruence]|].
    intros q Lq. exists (chi2 pts q). split; [apply error_chi2; auto; destruct q; [discriminate|congruence]|]. auto.
Qed.

Lemma combine_proj (l : list (R * R)) : combine (map fst l) (map snd l) = l.
Proof. induction l as [|[a b] l IH]; auto. cbn. now rewrite IH. Qed.
Lemma param_ret optimize pb pts n plot r : cut_at_zero pb pts -> optimizes_on optimize pts fit_model ->
  parametrize_phase_boundary optimize pb n plot = Ret r ->
  best_fit pts n (fst r) /\
  snd r = if plot then Some (mkFitPlot (map fst pts) (map snd pts) (map (fun x => poly (fst r) (fst x)) pts)) else None.
Proof.
  intros C O E. unfold parametrize_phase_boundary in E. rewrite (cut_unique _ _ C), combine_proj in E.
  apply obind_ret in E as (p & E & H). apply O in E. rewrite repeat_length in E. replace (n + 1)%nat with (S n) in E by lia. apply optimum_best in E.
  destruct plot; [|injection H as <-; auto]. destruct E as [L M].
  rewrite (omap_pure _ (poly p)) in H by (intros; apply ppd_R; destruct p; [discriminate|congruence]). cbn [obind] in H. injection H as <-.
  cbn [fst snd]. split; [split; auto|]. now rewrite map_map.
Qed.
Lemma param_panic optimize pb pts n plot : cut_at_zero pb pts -> optimizes_on optimize pts fit_model ->
  parametrize_phase_boundary optimize pb n plot = Panic <-> optimize pts fit_model (repeat 1 (S n)) 50%nat (/ 1000) 1000 = Panic.
Proof.
  intros C O. unfold parametrize_phase_boundary. rewrite (cut_unique _ _ C), combine_proj. replace (n + 1)%nat with (S n) by lia.
  destruct (optimize pts _ _ _ _ _) as [|p] eqn:E; [cbn; tauto|]. cbn [obind]. split; [|discriminate]. intros H. exfalso. apply O in E as [L _]. rewrite repeat_length in L.
  destruct plot; [|discriminate]. rewrite (omap_pure _ (poly p)) in H by (intros; apply ppd_R; destruct p; [discriminate|congruence]). discriminate.
Qed.
Lemma param_prefix optimize pb pts n plot rest : cut_at_zero pb pts -> 
  parametrize_phase_boundary optimize (pts ++ (fst (last pts (0, 0)), 0) :: rest) n plot = parametrize_phase_boundary optimize pb n plot.
Proof.
  intros C. unfold parametrize_phase_boundary. rewrite (cut_unique _ _ C). replace (reduce_phase_boundary (pts ++ _)) with pts; auto.
  symmetry. apply cut_unique. destruct C as (r & _ & F & _). exists ((fst (last pts (0, 0)), 0) :: rest). split; auto. split; auto. right. eauto.
Qed.

(** ** Whole runs *)
Lemma run_best J g optimize d out pts : physical_tc_main J g (boundary_fit optimize) d = Ret out ->
  cut_at_zero (po_boundary out) pts -> optimizes_on optimize pts fit_model -> best_fit pts 8 (po_fit out).
Proof.
  intros E C O. apply main_ret in E. destruct E as (_ & _ & _ & _ & _ & E & _). unfold boundary_fit in E. apply obind_ret in E as (r & E & H).
  injection H as <-. refine (proj1 (param_ret _ _ pts _ _ _ _ O E)). rewrite (cut_unique _ _ C).
  destruct C as (rest & _ & F & _). exists []. rewrite app_nil_r. auto.
Qed.
Lemma chempots_nodup v0 v1 dv : dv <> 0 -> NoDup (compute_vec (v0, v1, dv)).
Proof.
  intros H. unfold compute_vec. cbv zeta. apply Injective_map_NoDup; [|apply seq_NoDup].
  intros a b E. apply INR_eq. apply (Rmult_eq_reg_l dv); auto. lra.
Qed.
Lemma nodup_at_least k pts : NoDup (map fst pts) -> (at_least k pts <-> (k <= length pts)%nat).
Proof.
  intros N. split.
  - intros (l & Nl & I & <-). rewrite <- (map_length fst pts). now apply NoDup_incl_length.
  - intros L. exists (firstn k (map fst pts)). split; [now apply NoDup_firstn|]. split; [intros x; apply firstn_In'|]. apply firstn_length_le. now rewrite map_length.
Qed.
Lemma run_determined J g fit d out pts : physical_tc_main J g fit d = Ret out -> step (in_manychempots d) <> 0 ->
  cut_at_zero (po_boundary out) pts ->
  (forall p q, best_fit pts 8 p -> best_fit pts 8 q -> p = q) <-> (9 <= length pts)%nat.
Proof.
  intros E Hs C. apply main_ret in E. destruct E as (_ & _ & _ & E & _). apply diagram_ret in E as (_ & M & _).
  rewrite unique_iff. apply nodup_at_least. destruct C as (rest & Eq & _). rewrite Eq, map_app in M.
  assert (N : NoDup (map fst pts ++ map fst rest)).
  { rewrite M. unfold fresh, Config_new. cbn [cfg_chempots]. destruct (in_manychempots d) as [[v0 v1] dv]. now apply chempots_nodup. }
  clear - N. induction (map fst pts) as [|a l IH]; constructor; inversion N; subst; auto. intros I. apply H1. apply in_or_app. now left.
Qed.

(** ** Concrete cases *)
Definition line_routine : FitRoutine := fun data model init iter l0 l1 => if Nat.eqb (length init) 2 then Ret [7 / 4; - 1 / 4] else Panic.
Ltac polys := unfold poly; cbn [length Nat.sub sum_f_R0 nth pow].
Ltac sums := unfold dot, total, resid; cbn [fold_right fst snd]; polys.
Lemma ex_line : optimizes_on line_routine [(0, 2); (1, 1); (2, 3 / 2)] fit_model /\
  parametrize_phase_boundary line_routine [(0, 2); (1, 1); (2, 3 / 2); (3, 0); (4, 7)] 1 true =
    Ret ([7 / 4; - 1 / 4], Some (mkFitPlot [0; 1; 2] [2; 1; 3 / 2] [7 / 4; 3 / 2; 5 / 4])).
Proof.
  assert (B : best_fit [(0, 2); (1, 1); (2, 3 / 2)] 1 [7 / 4; - 1 / 4]).
  { apply normal_best. split; [reflexivity|]. intros j Hj. cbn [length] in Hj. destruct j as [|[|j]]; [| |lia]; sums; lra. }
  assert (C : cut_at_zero [(0, 2); (1, 1); (2, 3 / 2); (3, 0); (4, 7)] [(0, 2); (1, 1); (2, 3 / 2)]).
  { exists [(3, 0); (4, 7)]. split; [reflexivity|]. split; [repeat constructor; cbn; lra|right; eauto]. }
  assert (O : optimizes_on line_routine [(0, 2); (1, 1); (2, 3 / 2)] fit_model).
  { intros init iter l0 l1 p E. unfold line_routine in E. destruct (Nat.eqb_spec (length init) 2) as [L|]; [|discriminate]. injection E as <-. rewrite L. now apply optimum_best. }
  split; auto. destruct (parametrize_phase_boundary line_routine _ 1 true) as [|r] eqn:E.
  - exfalso. apply (proj1 (param_panic _ _ _ _ _ C O)) in E. discriminate.
  - unfold parametrize_phase_boundary in E. rewrite (cut_unique _ _ C), combine_proj in E. apply obind_ret in E as (p & E & H). injection E as <-.
    rewrite (omap_pure _ (poly [7 / 4; - 1 / 4])) in H by (intros; apply ppd_R; discriminate). cbn [obind] in H. injection H as <-.
    do 3 f_equal. cbn [map fst snd]. f_equal. repeat (apply f_equal2; [polys; lra|]). reflexivity.
Qed.

(** Four points and nine coefficients: the fit is not determined. *)
Lemma ex_undetermined : best_fit [(0, 1); (1, 1); (2, 1); (3, 1)] 8 [1; 0; 0; 0; 0; 0; 0; 0; 0] /\
  best_fit [(0, 1); (1, 1); (2, 1); (3, 1)] 8 [1; - 6; 11; - 6; 1; 0; 0; 0; 0].
Proof.
  assert (Z : forall p, 0 <= chi2 [(0, 1); (1, 1); (2, 1); (3, 1)] p) by (intros; apply total_nonneg; intros; apply pow2_ge_0).
  split; (split; [reflexivity|]); intros q _.
  - replace (chi2 _ [1; 0; 0; 0; 0; 0; 0; 0; 0]) with 0; auto. unfold chi2. sums. lra.
  - replace (chi2 _ [1; - 6; 11; - 6; 1; 0; 0; 0; 0]) with 0; auto. unfold chi2. sums. lra.
Qed.
