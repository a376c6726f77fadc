(** * Proofs about the plotting programs *)
From Coq Require Import Reals List Lra Lia ZArith.
From Coquelicot Require Import Coquelicot.
From Verif Require Import Num MCommon MConsts MUtils MVacuum MDress MQuark MPhase MProg SpecLim SpecInt SpecCold SpecProg PLim PVac PVacLim PDistr PDistr2 PDensity PColdFin.
Import List ListNotations.
Open Scope R_scope.

(** ** Slices and the loop *)
Lemma skipn_add {A} a b (v : list A) : skipn a (skipn b v) = skipn (b + a) v.
Proof. revert v. induction b as [|b IH]; intros v; simpl; [reflexivity|]. destruct v; [apply skipn_nil|apply IH]. Qed.
Lemma slice_middle {A} (v : list A) n : length v = n -> (2500 <= n)%nat -> middle v (slice 1250 n v).
Proof.
  intros L H. exists (firstn 1250 v), (skipn (n - 1250) v). unfold slice. repeat split.
  - rewrite <- (firstn_skipn 1250 v) at 1. f_equal. rewrite <- (firstn_skipn (n - 1250 - 1250) (skipn 1250 v)) at 1. f_equal.
    rewrite skipn_add. f_equal. lia.
  - rewrite firstn_length. lia.
  - rewrite skipn_length. lia.
Qed.
Lemma omap_Ret {A B} (f : A -> outcome B) l ys : omap f l = Ret ys -> Forall2 (fun x y => f x = Ret y) l ys.
Proof.
  revert ys. induction l as [|x l IH]; simpl; intros ys H.
  - injection H as <-. constructor.
  - destruct (f x) as [|y] eqn:E; simpl in H; [discriminate|]. destruct (omap f l) as [|zs]; simpl in H; [discriminate|].
    injection H as <-. constructor; auto.
Qed.
Lemma omap_Panic {A B} (f : A -> outcome B) l : omap f l = Panic -> exists x, In x l /\ f x = Panic.
Proof.
  induction l as [|x l IH]; simpl; [discriminate|]. destruct (f x) as [|y] eqn:E; simpl; [eauto|].
  destruct (omap f l); simpl; [|discriminate]. intros _. destruct IH as [z [Hz Ez]]; eauto.
Qed.
Lemma omap_In_Panic {A B} (f : A -> outcome B) l x : In x l -> f x = Panic -> omap f l = Panic.
Proof.
  induction l as [|y l IH]; simpl; [tauto|]. intros [->|H] E; [now rewrite E|]. rewrite (IH H E). destruct (f y); reflexivity.
Qed.
Lemma omap_map {A B} (f : A -> B) l : omap (fun x => Ret (f x)) l = Ret (map f l).
Proof. induction l as [|x l IH]; simpl; [reflexivity|]. now rewrite IH. Qed.

(** The two plots of a program from its curves. *)
Lemma plot_loop_eq curve c n pd dd zero dz :
  plot_loop curve c n plot_temperatures (mkPlot pd [zero] [], mkPlot dd [dz] [], [0]) =
  obind (omap curve plot_temperatures) (fun vs =>
    Ret (mkPlot pd (zero :: vs) [], mkPlot dd (dz :: map (slice c n) (firstn 2 vs)) [], 0 :: plot_temperatures)).
Proof.
  unfold plot_temperatures. cbn [plot_loop omap add_image pl_domain pl_images pl_legends app].
  destruct (curve (1 / 10)) as [|v0]; cbn [obind]; [reflexivity|]. destruct (Rle_dec (1 / 10) (2 / 10)); [|lra].
  destruct (curve (2 / 10)) as [|v1]; cbn [obind]; [reflexivity|]. destruct (Rle_dec (2 / 10) (2 / 10)); [|lra].
  destruct (curve (3 / 10)) as [|v2]; cbn [obind]; [reflexivity|]. destruct (Rle_dec (3 / 10) (2 / 10)); [lra|].
  destruct (curve (4 / 10)) as [|v3]; cbn [obind]; [reflexivity|]. destruct (Rle_dec (4 / 10) (2 / 10)); [lra|].
  destruct (curve (5 / 10)) as [|v4]; cbn [obind]; [reflexivity|]. destruct (Rle_dec (5 / 10) (2 / 10)); [lra|].
  destruct (curve (6 / 10)) as [|v5]; cbn [obind]; [reflexivity|]. destruct (Rle_dec (6 / 10) (2 / 10)); [lra|].
  destruct (curve (7 / 10)) as [|v6]; cbn [obind]; [reflexivity|]. destruct (Rle_dec (7 / 10) (2 / 10)); [lra|].
  destruct (curve (8 / 10)) as [|v7]; cbn [obind]; [reflexivity|]. destruct (Rle_dec (8 / 10) (2 / 10)); [lra|].
  destruct (curve (9 / 10)) as [|v8]; cbn [obind]; [reflexivity|]. destruct (Rle_dec (9 / 10) (2 / 10)); [lra|].
  destruct (curve 1) as [|v9]; cbn [obind]; [reflexivity|]. destruct (Rle_dec 1 (2 / 10)); [lra|].
  reflexivity.
Qed.
Lemma plot_program_eq zero curve grid : (2500 <= length grid)%nat ->
  plot_program zero curve grid =
  obind (omap curve plot_temperatures) (fun vs =>
    Ret (mkPlot grid (zero :: vs) (0 :: plot_temperatures),
         mkPlot (slice 1250 (length grid) grid) (slice 1250 (length grid) zero :: map (slice 1250 (length grid)) (firstn 2 vs)) (0 :: plot_temperatures))).
Proof.
  intros H. unfold plot_program. cbv zeta. replace (Nat.ltb (length grid) (1250 + 1250)) with false by (symmetry; apply Nat.ltb_ge; lia).
  unfold add_image at 1 2. cbn [pl_domain pl_images pl_legends app]. rewrite plot_loop_eq. destruct (omap curve plot_temperatures); reflexivity.
Qed.
Lemma plot_program_short zero curve grid : (length grid < 2500)%nat -> plot_program zero curve grid = Panic.
Proof. intros H. unfold plot_program. cbv zeta. now replace (Nat.ltb (length grid) (1250 + 1250)) with true by (symmetry; apply Nat.ltb_lt; lia). Qed.

(** ** qcd_quark_charge_density.rs *)
Lemma temps_pos t : In t plot_temperatures -> 0 < t.
Proof. unfold plot_temperatures; simpl. intros H. repeat (destruct H as [<-|H]; [lra|]). tauto. Qed.
Lemma half_eq : 5 / 10 = 1 / 2. Proof. lra. Qed.

Lemma density_plots J g grid : (2500 <= length grid)%nat ->
  exists plot detail, density_program J g grid = Ret (plot, detail) /\
    pl_domain plot = grid /\ pl_legends plot = 0 :: plot_temperatures /\ pl_legends detail = 0 :: plot_temperatures /\
    pl_images plot = map (fun t => map (density_at J g t) grid) (0 :: plot_temperatures) /\
    middle grid (pl_domain detail) /\ Forall2 middle (firstn 3 (pl_images plot)) (pl_images detail).
Proof.
  intros H. unfold density_program. cbv zeta. rewrite plot_program_eq, omap_map by auto. cbn [obind].
  do 2 eexists. split; [reflexivity|]. cbn [pl_domain pl_legends pl_images].
  assert (E : map (charge_density_zero_temp (get_number_of_colors g) (5 / 10)) grid :: map (fun t => map (charge_density J g (5 / 10) (1 / t)) grid) plot_temperatures
    = map (fun t => map (density_at J g t) grid) (0 :: plot_temperatures)).
  { rewrite map_cons. f_equal.
    - apply map_ext. intros x. unfold density_at. rewrite half_eq. destruct (Req_EM_T 0 0); [reflexivity|lra].
    - apply map_ext_in. intros t Ht. apply temps_pos in Ht. apply map_ext. intros x. unfold density_at. rewrite half_eq.
      destruct (Req_EM_T t 0); [lra|]. f_equal. unfold Rdiv; ring. }
  repeat split; auto.
  - now apply slice_middle.
  - repeat constructor; apply slice_middle; auto; now rewrite map_length.
Qed.
Lemma map_incr (f : R -> R) l : (forall x y, x < y -> f x < f y) -> increasing_list l -> increasing_list (map f l).
Proof.
  intros Hf Hl i j x y Hij Hx Hy. rewrite nth_error_map in Hx, Hy.
  destruct (nth_error l i) eqn:E1, (nth_error l j) eqn:E2; simpl in *; try discriminate.
  injection Hx as <-. injection Hy as <-. apply Hf. eapply Hl; eauto.
Qed.
Lemma map_nondecr (f : R -> R) l : (forall x y, x < y -> f x <= f y) -> increasing_list l -> nondecreasing_list (map f l).
Proof.
  intros Hf Hl i j x y Hij Hx Hy. rewrite nth_error_map in Hx, Hy.
  destruct (nth_error l i) eqn:E1, (nth_error l j) eqn:E2; simpl in *; try discriminate.
  injection Hx as <-. injection Hy as <-. apply Hf. eapply Hl; eauto.
Qed.
Lemma density_curves J g grid : exact_integrator J -> (0 < g_nc g)%nat -> increasing_list grid ->
  nondecreasing_list (map (density_at J g 0) grid) /\
  (forall t, In t plot_temperatures -> increasing_list (map (density_at J g t) grid)) /\
  (forall t mu, In t (0 :: plot_temperatures) -> density_at J g t (- mu) = - density_at J g t mu) /\
  (forall mu, density_at J g 0 mu = 0 <-> - (1 / 2) <= mu <= 1 / 2).
Proof.
  intros HJ Hn Hg. assert (Z : forall mu, density_at J g 0 mu = charge_density_zero_temp (g_nc g) (1 / 2) mu).
  { intros mu. unfold density_at. destruct (Req_EM_T 0 0); [reflexivity|lra]. }
  assert (P : forall t mu, In t plot_temperatures -> density_at J g t mu = charge_density J g (1 / 2) (/ t) mu).
  { intros t mu Ht. apply temps_pos in Ht. unfold density_at. destruct (Req_EM_T t 0); [lra|reflexivity]. }
  assert (B : forall t, In t plot_temperatures -> 0 < / t) by (intros t Ht; apply Rinv_0_lt_compat, temps_pos, Ht).
  repeat split.
  - apply map_nondecr; auto. intros x y Hxy. rewrite !Z. apply density_mono. lra.
  - intros t Ht. apply map_incr; auto. intros x y Hxy. rewrite !P by auto. unfold charge_density. apply cd_increasing; auto.
  - intros t mu [<-|Ht].
    + rewrite !Z. apply density_odd.
    + rewrite !P by auto. unfold charge_density. apply cd_odd; auto.
  - rewrite Z in H. apply density_zero_iff in H; auto. apply Rabs_le_between in H. rewrite (Rabs_pos_eq (1 / 2)) in H; lra.
  - rewrite Z in H. apply density_zero_iff in H; auto. apply Rabs_le_between in H. rewrite (Rabs_pos_eq (1 / 2)) in H; lra.
  - intros H. rewrite Z. apply density_zero_iff; auto. rewrite (Rabs_pos_eq (1 / 2)) by lra. apply Rabs_le_between. lra.
Qed.

(** ** qcd_quark_chemical_potential.rs *)
Lemma Forall2_impl' {A B} (P Q : A -> B -> Prop) l l' : (forall x y, In x l -> P x y -> Q x y) -> Forall2 P l l' -> Forall2 Q l l'.
Proof. intros H F. induction F; constructor; [apply H; simpl; auto|apply IHF; intros; apply H; simpl; auto]. Qed.
Lemma Forall2_length' {A B} (P : A -> B -> Prop) l l' : Forall2 P l l' -> length l = length l'.
Proof. induction 1; simpl; auto. Qed.
Lemma tol_set g : exists g', set_default_tol_integral OpsR (/ 10 ^ 5) g = Some g' /\ g_tol_integral g' = / 10 ^ 5 /\ g_nc g' = g_nc g /\ g_nf g' = g_nf g
  /\ g_nf_div_nc g' = g_nf_div_nc g /\ g_m_quark g' = g_m_quark g /\ g_max_iter_integral g' = g_max_iter_integral g /\ g_matsubara_reg g' = g_matsubara_reg g.
Proof.
  unfold set_default_tol_integral, OpsR; simpl. destruct (Rlt_dec 0 _) as [H|H].
  - eexists. split; [reflexivity|]. simpl. repeat split.
  - exfalso. apply H. lra.
Qed.
Lemma chempot_plots J g grid plot detail g' : (0 < g_nc g)%nat -> chempot_program J g grid = Ret (plot, detail, g') ->
  g_tol_integral g' = / 10 ^ 5 /\ g_nc g' = g_nc g /\
  pl_domain plot = grid /\ pl_legends plot = 0 :: plot_temperatures /\ pl_legends detail = 0 :: plot_temperatures /\
  Forall2 (fun t vals => Forall2 (solves J g' t) grid vals) (0 :: plot_temperatures) (pl_images plot) /\
  middle grid (pl_domain detail) /\ Forall2 middle (firstn 3 (pl_images plot)) (pl_images detail).
Proof.
  intros Hn. unfold chempot_program. destruct (tol_set g) as [h [E [Et [Ec _]]]]. rewrite E. cbv zeta.
  destruct (le_lt_dec 2500 (length grid)) as [L|L]; [|rewrite plot_program_short by auto; discriminate].
  rewrite plot_program_eq by auto.
  destruct (omap _ plot_temperatures) as [|vs] eqn:O; [discriminate|]. cbn [obind]. intros H. injection H as <- <- <-.
  cbn [pl_domain pl_images pl_legends]. apply omap_Ret in O.
  assert (Z : Forall2 (solves J h 0) grid (map (chemical_potential_zero_temp (get_number_of_colors h) (5 / 10)) grid)).
  { clear L O. induction grid as [|n l IH]; simpl; constructor; auto. unfold solves, get_number_of_colors. rewrite half_eq.
    destruct (Req_dec n 0) as [->|N].
    - left. unfold chemical_potential_zero_temp. destruct (Req_EM_T 0 0); [auto|lra].
    - right. assert (D : density_at J h 0 (chemical_potential_zero_temp (g_nc h) (1 / 2) n) = n).
      { unfold density_at. destruct (Req_EM_T 0 0); [|lra]. apply density_of_chempot. now rewrite Ec. }
      rewrite D. split; [auto|split; [auto|]]. replace (n - n) with 0 by ring. rewrite Rabs_R0. lra. }
  assert (V : Forall2 (fun t vals => Forall2 (solves J h t) grid vals) plot_temperatures vs).
  { eapply Forall2_impl'; [|exact O]. intros t vals Ht F. apply omap_Ret in F. eapply Forall2_impl'; [|exact F]. intros n v _ C. unfold chemical_potential in C.
    apply temps_pos in Ht. apply chempot_within_tol in C. destruct C as [C|[C1 C2]]; [left; auto|right]. repeat split; auto; [intros; lra|].
    unfold density_at. destruct (Req_EM_T t 0); [lra|]. unfold charge_density. rewrite half_eq in C2.
    replace (1 / t) with (/ t) in C2 by (unfold Rdiv; ring). simpl in C2. rewrite Et in C2. exact C2. }
  repeat split; auto.
  - now apply slice_middle.
  - assert (LV : Forall (fun v => length v = length grid) vs).
    { clear - V. induction V; constructor; auto. apply Forall2_length' in H. auto. }
    assert (Hu : forall x, In x (firstn 2 vs) -> length x = length grid).
    { intros x Hx. apply (proj1 (Forall_forall _ _) LV). rewrite <- (firstn_skipn 2 vs). apply in_or_app; auto. }
    enough (F : Forall2 middle (map (chemical_potential_zero_temp (get_number_of_colors h) (5 / 10)) grid :: firstn 2 vs)
      (slice 1250 (length grid) (map (chemical_potential_zero_temp (get_number_of_colors h) (5 / 10)) grid) :: map (slice 1250 (length grid)) (firstn 2 vs))) by exact F.
    constructor; [apply slice_middle; auto; now rewrite map_length|].
    revert Hu. generalize (firstn 2 vs). clear - L. intros us Hu.
    induction us; cbn [map]; constructor; [apply slice_middle; auto; apply Hu; left; auto|apply IHus; intros; apply Hu; right; auto].
Qed.
Lemma chempot_panics J g grid : chempot_program J g grid = Panic <-> (length grid < 2500)%nat \/
  exists g' t n, set_default_tol_integral OpsR (/ 10 ^ 5) g = Some g' /\ In t plot_temperatures /\ In n grid /\ chemical_potential J g' (1 / 2) (/ t) n = Panic.
Proof.
  unfold chempot_program. destruct (tol_set g) as [h [E _]]. rewrite E. cbv zeta. split.
  - intros H. destruct (le_lt_dec 2500 (length grid)) as [L|L]; [right|auto]. rewrite plot_program_eq in H by auto.
    destruct (omap _ plot_temperatures) as [|vs] eqn:O; [|discriminate]. apply omap_Panic in O. destruct O as [t [Ht O]].
    apply omap_Panic in O. destruct O as [n [Hg O]]. exists h, t, n. split; [reflexivity|split; [exact Ht|split; [exact Hg|]]].
    rewrite <- half_eq. replace (/ t) with (1 / t) by (unfold Rdiv; ring). exact O.
  - intros [L|[g' [t [n [E' [Ht [Hg P]]]]]]]; [now rewrite plot_program_short|]. injection E' as <-.
    destruct (le_lt_dec 2500 (length grid)) as [L|L]; [|now rewrite plot_program_short]. rewrite plot_program_eq by auto.
    erewrite (omap_In_Panic _ plot_temperatures t Ht); [reflexivity|]. apply (omap_In_Panic _ grid n Hg).
    rewrite half_eq. replace (1 / t) with (/ t) by (unfold Rdiv; ring). exact P.
Qed.
