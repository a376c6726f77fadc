(** * The secant search for the chemical potential: where it succeeds *)
From Coq Require Import Reals Psatz Lia.
From Coquelicot Require Import Coquelicot.
From Verif Require Import Num MCommon MConsts MDress MQuark MUtils SpecInt SpecLim PDistr PDistr2 PVac PLim PInt PBasel PBound PFermi PColdQ PColdFin PDensity PChem.
Open Scope R_scope.

(** ** A contraction argument; [s] is the divided difference of [N] *)
Section Contract.
Variables (N : R -> R) (s : R -> R -> R) (n r b b' c D tol : R).
Hypothesis Ns : forall x y, N y - N x = s x y * (y - x).
Hypothesis Hr : N r = n.
Hypothesis Hb : 0 < b.
Hypothesis Htol : 0 < tol.
Hypothesis Hs : forall x y, Rabs (x - r) <= D -> Rabs (y - r) <= D -> b <= s x y <= b'.
Hypothesis Hc : forall x y, Rabs (x - r) <= D -> Rabs (y - r) <= D -> Rabs (s x y - s y r) <= c * Rabs (x - r).
Hypothesis Hc0 : 0 <= c.
Hypothesis HcD : 2 * (c * D) <= b.
Notation F := (fun z : R => n - N z).
Notation loop := (find_root_loop RootOpsR F tol).
Lemma F_err z : F z = s z r * (r - z).
Proof. cbv beta. rewrite <- Hr. rewrite Ns. reflexivity. Qed.
Lemma step_contract z0 z1 : z0 <> z1 -> Rabs (z0 - r) <= D -> Rabs (z1 - r) <= D ->
  let z2 := (z0 * F z1 - z1 * F z0) / (F z1 - F z0) in Rabs (z2 - r) <= Rabs (z1 - r) / 2.
Proof.
  intros Hne H0 H1 z2. destruct (Hs z0 z1 H0 H1) as (S1 & S2). pose proof (Hc z0 z1 H0 H1) as C. pose proof (Ns z0 z1) as E.
  assert (E1 : N z1 = n - s z1 r * (r - z1)) by (pose proof (Ns z1 r); lra).
  assert (E0 : N z0 = N z1 - s z0 z1 * (z1 - z0)) by lra.
  assert (Z : z2 - r = (z1 - r) * ((s z0 z1 - s z1 r) / s z0 z1)).
  { unfold z2. rewrite E0, E1. field. split; [lra|]. intro Q. apply (Rmult_integral_contrapositive_currified (s z0 z1) (z1 - z0)); lra. }
  rewrite Z, Rabs_mult. apply Rmult_le_compat_l; [apply Rabs_pos|]. unfold Rdiv. rewrite Rabs_mult, Rabs_inv, (Rabs_pos_eq (s z0 z1)) by lra.
  apply Rmult_le_reg_r with (s z0 z1); [lra|]. rewrite Rmult_assoc, Rinv_l by lra. assert (c * Rabs (z0 - r) <= c * D) by (apply Rmult_le_compat_l; auto). lra.
Qed.
Lemma loop_succeeds iter : forall E z0 z1, z0 <> z1 -> Rabs (z0 - r) <= D -> Rabs (z1 - r) <= E -> E <= D -> b' * E < tol * 2 ^ iter ->
  exists w, loop (S iter) z0 z1 (F z0) (F z1) = Some w.
Proof.
  induction iter as [|k IH]; intros E z0 z1 Hne H0 H1 HE Hsm.
  - rewrite loop_S. destruct (ro_small RootOpsR (F z1) tol) eqn:Q; [eexists; reflexivity|]. exfalso. simpl in Q. destruct (Rlt_dec (Rabs (n - N z1)) tol) as [L|L]; [discriminate|]. apply L.
    pose proof (F_err z1) as X. cbv beta in X. rewrite X, Rabs_mult, (Rabs_minus_sym r). assert (D0 : Rabs (r - r) <= D) by (rewrite Rminus_eq_0, Rabs_R0; pose proof (Rabs_pos (z0 - r)); lra).
    destruct (Hs z1 r ltac:(lra) D0). rewrite Rabs_pos_eq by lra. simpl in Hsm. pose proof (Rabs_pos (z1 - r)). assert (s z1 r * Rabs (z1 - r) <= b' * E) by (apply Rmult_le_compat; lra). lra.
  - rewrite loop_S. destruct (ro_small RootOpsR (F z1) tol) eqn:Sm; [eexists; reflexivity|]. cbv zeta.
    assert (Nr : z1 <> r). { intros ->. simpl in Sm. rewrite Hr, Rminus_eq_0, Rabs_R0 in Sm. destruct (Rlt_dec 0 tol); [discriminate|contradiction]. }
    pose proof (step_contract z0 z1 Hne H0 ltac:(lra)) as C. cbv zeta in C. set (z2 := (z0 * F z1 - z1 * F z0) / (F z1 - F z0)) in *.
    assert (P : 0 < Rabs (z1 - r)) by (apply Rabs_pos_lt; lra).
    apply (IH (E / 2)); try lra.
    + intro Q. rewrite <- Q in C. lra.
    + simpl in Hsm. lra.
Qed.
End Contract.

(** ** Massless quarks *)
Section Massless.
Variables (J : Integrator) (g : globals R) (beta : R) (I : Integral R).
Hypothesis HJ : exact_integrator J.
Hypothesis Hb : 0 < beta.
Hypothesis Hnc : (0 < g_nc g)%nat.
Notation cd mu := (charge_density_with_method J g 0 beta mu I).
Notation nc := (INR (g_nc g)).
(** [A mu^3 + B mu] *)
Definition cA : R := nc / (3 * (PI * PI)).
Definition cB : R := nc / (3 * (beta * beta)).
Lemma cd_poly mu : cd mu = cA * (mu * mu * mu) + cB * mu.
Proof. rewrite cd_massless by auto. unfold cA, cB. pose proof PI_neq0. field. split; auto. lra. Qed.
Lemma cA_pos : 0 < cA. Proof. unfold cA. pose proof (lt_0_INR _ Hnc). pose proof PI_RGT_0. apply Rdiv_lt_0_compat; nra. Qed.
Lemma cB_pos : 0 < cB. Proof. unfold cB. pose proof (lt_0_INR _ Hnc). apply Rdiv_lt_0_compat; nra. Qed.
Lemma hot_succeeds n : n <> 0 -> 0 < get_tol I -> 100 * (cA * (n * n)) * ((1 + cB) * (1 + cB)) <= cB * (cB * cB) ->
  4 * ((1 + cB) * Rabs n) < get_tol I * 2 ^ 999 -> exists mu, chemical_potential_with_method J g 0 beta n I = Ret mu.
Proof.
  intros Hn Ht Hsm Hit. pose proof cA_pos as HA. pose proof cB_pos as HB.
  destruct (cd_exists_unique J g beta I HJ Hb 0 n Hnc) as (r & Hr & _).
  set (a := Rabs n). assert (Ha : 0 < a) by (apply Rabs_pos_lt; auto). assert (An : a * a = n * n) by (unfold a; apply Rabs_sq || (rewrite <- Rabs_mult; rewrite Rabs_pos_eq; nra)).
  assert (Br : cB * Rabs r <= a).
  { rewrite cd_poly in Hr. unfold a. rewrite <- Hr. replace (cA * (r * r * r) + cB * r) with (r * (cA * (r * r) + cB)) by ring. rewrite Rabs_mult, Rmult_comm. assert (0 <= cA * (r * r)) by (apply Rmult_le_pos; nra). rewrite (Rabs_pos_eq (_ + _)) by lra. apply Rmult_le_compat_l; [apply Rabs_pos|lra]. }
  set (D := a * (1 + cB) / cB). assert (HD : 0 < D) by (unfold D; apply Rdiv_lt_0_compat; nra).
  assert (rD : Rabs r <= D). { apply Rmult_le_reg_l with cB; auto. apply Rle_trans with (1 := Br). replace (cB * D) with (a * (1 + cB)) by (unfold D; field; lra). nra. }
  assert (nrD : a + Rabs r <= D). { apply Rmult_le_reg_l with cB; auto. replace (cB * D) with (a + a * cB) by (unfold D; field; lra). lra. }
  assert (AD : 100 * (cA * (D * D)) <= cB).
  { apply Rmult_le_reg_r with (cB * cB); [nra|]. replace (100 * (cA * (D * D)) * (cB * cB)) with (100 * (cA * (a * a)) * ((1 + cB) * (1 + cB))) by (unfold D; field; lra). rewrite An. lra. }
  set (s := fun x y => cA * (x * x + x * y + y * y) + cB).
  assert (near : forall x, Rabs (x - r) <= D -> Rabs x <= 2 * D). { intros x H. replace x with ((x - r) + r) by ring. apply Rle_trans with (1 := Rabs_triang _ _). lra. }
  assert (prod : forall x y, Rabs x <= 2 * D -> Rabs y <= 2 * D -> Rabs (x * y) <= 4 * (D * D)). { intros x y H1 H2. rewrite Rabs_mult. replace (4 * (D * D)) with ((2 * D) * (2 * D)) by ring. apply Rmult_le_compat; auto using Rabs_pos. }
  assert (W : exists w, find_root_loop RootOpsR (fun z => n - cd z) (get_tol I) 1000 (5 / 10 * n) n (n - cd (5 / 10 * n)) (n - cd n) = Some w).
  { apply (loop_succeeds (fun z => cd z) s n r cB (2 * cB) (5 * (cA * D)) D (get_tol I)) with (E := D); auto.
    - intros x y. rewrite !cd_poly. unfold s. ring.
    - intros x y Hx Hy. unfold s. assert (0 <= x * x + x * y + y * y) by nra. split; [nra|].
      pose proof (prod x x (near x Hx) (near x Hx)). pose proof (prod x y (near x Hx) (near y Hy)). pose proof (prod y y (near y Hy) (near y Hy)).
      assert (x * x + x * y + y * y <= 12 * (D * D)). { pose proof (Rle_abs (x * x)). pose proof (Rle_abs (x * y)). pose proof (Rle_abs (y * y)). lra. }
      assert (cA * (x * x + x * y + y * y) <= cA * (12 * (D * D))) by (apply Rmult_le_compat_l; lra). nra.
    - intros x y Hx Hy. unfold s. replace (cA * (x * x + x * y + y * y) + cB - (cA * (y * y + y * r + r * r) + cB)) with (cA * (x + y + r) * (x - r)) by ring. rewrite Rabs_mult. apply Rmult_le_compat_r; [apply Rabs_pos|].
      rewrite Rabs_mult, (Rabs_pos_eq cA) by lra. replace (5 * (cA * D)) with (cA * (5 * D)) by ring. apply Rmult_le_compat_l; [lra|]. pose proof (near x Hx). pose proof (near y Hy).
      apply Rle_trans with (1 := Rabs_triang _ _). pose proof (Rabs_triang x y). lra.
    - apply Rmult_le_pos; [lra|]. apply Rmult_le_pos; lra.
    - assert (0 <= cA * (D * D)) by (apply Rmult_le_pos; nra). nra.
    - lra.
    - apply Rle_trans with (1 := Rabs_triang _ _). rewrite Rabs_Ropp, Rabs_mult. fold a. rewrite (Rabs_pos_eq (5 / 10)) by lra. lra.
    - apply Rle_trans with (1 := Rabs_triang _ _). rewrite Rabs_Ropp. fold a. lra.
    - lra.
    - apply Rle_lt_trans with (2 := Hit). replace (2 * cB * D) with (2 * ((1 + cB) * a)) by (unfold D; field; lra). fold a. assert (0 < (1 + cB) * a) by nra. lra. }
  destruct W as (w & W). exists (fst w). unfold chemical_potential_with_method. destruct (Req_EM_T n 0); [contradiction|].
  unfold find_root. simpl ro_eq. simpl ro_pos. cbv beta. simpl fst. simpl snd. destruct (Req_EM_T (5 / 10 * n) n) as [E|E]; [exfalso; apply Hn; lra|]. destruct (Rlt_dec 0 (get_tol I)); [|contradiction]. cbv [negb].
  rewrite W. reflexivity.
Qed.
End Massless.
Lemma hot_total J g beta n I : exact_integrator J -> 0 < beta -> (0 < g_nc g)%nat -> n <> 0 -> 0 < get_tol I ->
  let A := INR (g_nc g) / (3 * (PI * PI)) in let B := INR (g_nc g) / (3 * (beta * beta)) in
  100 * (A * (n * n)) * ((1 + B) * (1 + B)) <= B * (B * B) -> 4 * ((1 + B) * Rabs n) < get_tol I * 2 ^ 999 ->
  exists mu, chemical_potential_with_method J g 0 beta n I = Ret mu /\
    forall mu0, charge_density_with_method J g 0 beta mu0 I = n -> Rabs (mu - mu0) < 3 * (beta * beta) * get_tol I / INR (g_nc g).
Proof.
  intros HJ Hb Hn Hz Ht A B H1 H2. destruct (hot_succeeds J g beta I HJ Hb Hn n Hz Ht H1 H2) as (mu & E). exists mu. split; auto.
  intros mu0 H0. exact (chempot_error J g beta I HJ Hb n mu mu0 Hn E Ht H0).
Qed.
