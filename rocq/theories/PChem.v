(** * The secant search for the chemical potential: where it fails *)
From Coq Require Import Reals Psatz Lia.
From Coquelicot Require Import Coquelicot.
From Verif Require Import Num MCommon MConsts MDress MQuark MUtils SpecInt SpecLim PDistr PDistr2 PVac PLim PInt PBasel PBound PFermi PColdQ PColdFin PDensity.
Open Scope R_scope.

(** ** The search on a function with a flat left part and a steep right part *)
Section Flat.
Variables (N : R -> R) (n M e tol S : R).
Hypothesis Hn : 0 < n.
Hypothesis Htol : 0 < tol.
Hypothesis He : 0 < e.
Hypothesis HS : 0 < S.
Hypothesis Ninc : forall a b, a < b -> N a < N b.
Hypothesis N0 : N 0 = 0.
(** below [M] the function is flat ... *)
Hypothesis Nflat : forall a b, 0 <= a -> a <= b -> b <= M -> N b - N a <= e * (b - a).
Hypothesis Nlow : N M <= n - tol.
(** ... and beyond [tol / e] it is steep *)
Hypothesis Nhigh : forall z, tol / e <= z -> n + S * z <= N z.
Hypothesis Nbig : tol <= S * (tol / e).
Notation F := (fun z : R => n - N z).
Notation loop := (find_root_loop RootOpsR F tol).

Lemma low a : a <= M -> tol <= n - N a.
Proof. intros [L| ->]; [|lra]. pose proof (Ninc _ _ L). lra. Qed.
Lemma N_nonneg a : 0 <= a -> 0 <= N a.
Proof. intros [L|<-]; [|lra]. pose proof (Ninc _ _ L). lra. Qed.
Definition left (k : nat) (a : R) : Prop := 0 <= a <= n + INR k * (n / S).
Definition right (z : R) : Prop := tol / e <= z /\ n <= z.
Lemma tole : 0 < tol / e. Proof. now apply Rdiv_lt_0_compat. Qed.
Lemma d_pos : 0 < n / S. Proof. now apply Rdiv_lt_0_compat. Qed.
Lemma left_S k a : left k a -> left (Datatypes.S k) a.
Proof. intros (A & B). split; auto. rewrite S_INR. pose proof d_pos. lra. Qed.
Lemma M_right z : right z -> M < z.
Proof.
  intros (Z & _). destruct (Rlt_le_dec M z) as [L|L]; auto. pose proof (Nhigh z Z) as H. pose proof (low z L). pose proof tole. assert (0 < S * z) by (apply Rmult_lt_0_compat; lra). lra.
Qed.
(** two left points: the next one is far right *)
Lemma step_A a b : 0 <= a -> a < b -> b <= M -> let z := (a * F b - b * F a) / (F b - F a) in tol / e <= z /\ M < z.
Proof.
  intros Ha L Hb z. pose proof (Ninc a b L) as I. pose proof (Nflat a b Ha (Rlt_le _ _ L) Hb) as E. pose proof (low b Hb) as T. pose proof tole.
  assert (Z : z = b + (n - N b) * ((b - a) / (N b - N a))) by (unfold z; field; split; lra).
  assert (G : / e <= (b - a) / (N b - N a)).
  { apply Rmult_le_reg_r with (e * (N b - N a)); [apply Rmult_lt_0_compat; lra|]. replace (/ e * (e * (N b - N a))) with (N b - N a) by (field; lra).
    replace ((b - a) / (N b - N a) * (e * (N b - N a))) with (e * (b - a)) by (field; lra). exact E. }
  assert (Q : tol / e <= z). { rewrite Z. unfold Rdiv at 1. assert (0 < / e) by now apply Rinv_0_lt_compat. assert (tol * / e <= (n - N b) * ((b - a) / (N b - N a))) by (apply Rmult_le_compat; lra). lra. }
  split; auto. destruct (Rlt_le_dec M z) as [K|K]; auto. pose proof (Nhigh z Q) as H1. pose proof (low z K). assert (0 < S * z) by (apply Rmult_lt_0_compat; lra). lra.
Qed.
(** one left and one right point: the next one is barely right of the left one *)
Lemma step_B a z : 0 <= a -> a <= M -> tol / e <= z -> let w := a + (n - N a) * ((z - a) / (N z - N a)) in a < w <= a + n / S.
Proof.
  intros Ha Hm Hz w. pose proof tole. pose proof (low a Hm) as T. pose proof (Nhigh z Hz) as H1. pose proof (N_nonneg a Ha) as P.
  assert (Sz : 0 < S * z) by (apply Rmult_lt_0_compat; lra).
  assert (L : a < z). { destruct (Rlt_le_dec a z) as [K|[K|K]]; auto; [pose proof (Ninc _ _ K); lra|subst z; lra]. }
  pose proof (Ninc a z L) as I. assert (G : 0 < (z - a) / (N z - N a)) by (apply Rdiv_lt_0_compat; lra).
  assert (G' : (z - a) / (N z - N a) <= / S).
  { apply Rmult_le_reg_r with (S * (N z - N a)); [apply Rmult_lt_0_compat; lra|]. replace ((z - a) / (N z - N a) * (S * (N z - N a))) with (S * (z - a)) by (field; lra).
    replace (/ S * (S * (N z - N a))) with (N z - N a) by (field; lra). nra. }
  unfold w. split; [assert (0 < (n - N a) * ((z - a) / (N z - N a))) by (apply Rmult_lt_0_compat; lra); lra|].
  assert (0 < / S) by now apply Rinv_0_lt_compat. unfold Rdiv at 2. assert ((n - N a) * ((z - a) / (N z - N a)) <= n * / S) by (apply Rmult_le_compat; lra). lra.
Qed.
Lemma not_small x : tol <= Rabs x -> ro_small RootOpsR x tol = false.
Proof. intros H. simpl. destruct (Rlt_dec (Rabs x) tol); auto. lra. Qed.
Lemma loop_S k z0 z1 : loop (Datatypes.S k) z0 z1 (F z0) (F z1) = if ro_small RootOpsR (F z1) tol then Some (z1, F z1)
  else let z2 := (z0 * F z1 - z1 * F z0) / (F z1 - F z0) in loop k z1 z2 (F z1) (F z2).
Proof. reflexivity. Qed.
Lemma left_big a : a <= M -> tol <= Rabs (F a).
Proof. intros H. pose proof (low a H). rewrite Rabs_pos_eq; lra. Qed.
Lemma right_big z : tol / e <= z -> tol <= Rabs (F z).
Proof. intros H. pose proof (Nhigh z H). assert (S * (tol / e) <= S * z) by (apply Rmult_le_compat_l; lra). rewrite Rabs_left1; lra. Qed.
Lemma loop_fails iter : forall k z0 z1, n + INR (k + iter) * (n / S) <= M ->
  (left k z0 /\ left k z1 /\ z0 < z1) \/ (left k z0 /\ tol / e <= z1 /\ M < z1) \/ (left k z1 /\ tol / e <= z0 /\ M < z0) ->
  loop iter z0 z1 (F z0) (F z1) = None.
Proof.
  induction iter as [|iter IH]; intros k z0 z1 HM H; [reflexivity|]. pose proof d_pos as Hd.
  assert (Lk : forall a, left k a -> 0 <= a /\ a <= M).
  { intros a (A1 & A2). split; auto. apply Rle_trans with (1 := A2), Rle_trans with (2 := HM). apply Rplus_le_compat_l, Rmult_le_compat_r; [lra|]. apply le_INR. lia. }
  replace (k + Datatypes.S iter)%nat with (Datatypes.S k + iter)%nat in HM by lia. rewrite loop_S.
  destruct H as [(A & B & L)|[(A & B & L)|(A & B & L)]].
  - destruct (Lk _ A), (Lk _ B). rewrite (not_small _ (left_big z1 ltac:(lra))). apply (IH (Datatypes.S k)); auto. right. left. split; [now apply left_S|]. apply step_A; lra.
  - destruct (Lk _ A). rewrite (not_small _ (right_big z1 B)). apply (IH (Datatypes.S k)); auto. right. right. split; [|auto].
    pose proof (step_B z0 z1 ltac:(lra) ltac:(lra) B) as (X & Y). cbv zeta in X, Y. assert (z0 < z1) by lra. pose proof (Ninc z0 z1 ltac:(lra)).
    replace ((z0 * F z1 - z1 * F z0) / (F z1 - F z0)) with (z0 + (n - N z0) * ((z1 - z0) / (N z1 - N z0))) by (field; split; lra).
    destruct A as (A1 & A2). split; [lra|]. rewrite S_INR. lra.
  - destruct (Lk _ A). rewrite (not_small _ (left_big z1 ltac:(lra))). apply (IH (Datatypes.S k)); auto. left.
    pose proof (step_B z1 z0 ltac:(lra) ltac:(lra) B) as (X & Y). cbv zeta in X, Y. assert (z1 < z0) by lra. pose proof (Ninc z1 z0 ltac:(lra)).
    replace ((z0 * F z1 - z1 * F z0) / (F z1 - F z0)) with (z1 + (n - N z1) * ((z0 - z1) / (N z0 - N z1))) by (field; repeat split; lra).
    split; [now apply left_S|]. split; auto. destruct A as (A1 & A2). split; [lra|]. rewrite S_INR. lra.
Qed.
Lemma search_fails : n + INR 1000 * (n / S) <= M -> find_root RootOpsR F (5 / 10 * n, n) tol 1000 = Ret None.
Proof.
  intros HM. unfold find_root. simpl ro_eq. simpl ro_pos. cbv beta. simpl fst. simpl snd.
  destruct (Req_EM_T (5 / 10 * n) n); [lra|]. destruct (Rlt_dec 0 tol); [|lra]. cbv [negb]. apply f_equal.
  apply (loop_fails 1000 0); [exact HM|]. left. unfold left. simpl INR. pose proof d_pos. lra.
Qed.
End Flat.
(** the mirrored search *)
Lemma loop_mirror (F G : R -> R) tol : (forall z, G (- z) = - F z) -> forall iter z0 z1,
  find_root_loop RootOpsR F tol iter z0 z1 (F z0) (F z1) = None -> find_root_loop RootOpsR G tol iter (- z0) (- z1) (G (- z0)) (G (- z1)) = None.
Proof.
  intros E. induction iter as [|k IH]; intros z0 z1 H; [reflexivity|].
  cbn [find_root_loop ro_nan ro_small ro_sub ro_mul ro_div RootOpsR] in *. rewrite !E, Rabs_Ropp.
  destruct (Rlt_dec (Rabs (F z1)) tol); [discriminate|].
  replace ((- z0 * - F z1 - - z1 * - F z0) / (- F z1 - - F z0)) with (- ((z0 * F z1 - z1 * F z0) / (F z1 - F z0))).
  - rewrite <- (E z1). apply IH. exact H.
  - unfold Rdiv. replace (- z0 * - F z1 - - z1 * - F z0) with (z0 * F z1 - z1 * F z0) by ring. replace (- F z1 - - F z0) with (- (F z1 - F z0)) by ring.
    destruct (Req_dec (F z1 - F z0) 0) as [Z|Z]; [rewrite Z, Ropp_0, Rinv_0; ring|]. field. lra.
Qed.

(** ** Cold quarks: the density inside the gap is flat *)
Section Cold.
Variables (J : Integrator) (g : globals R) (beta m : R) (I : Integral R).
Hypothesis HJ : exact_integrator J.
Hypothesis Hb : 0 < beta.
Hypothesis Hnc : (0 < g_nc g)%nat.
Notation cd mu := (charge_density_with_method J g m beta mu I).
Notation Nb := (Nb g beta m).
Lemma Nb_nonneg mu : 0 <= Nb mu.
Proof.
  apply (compact_le (fun _ => 0) (fT m mu (wc (g_nc g)) beta) 0 (Nb mu)); [|apply (Nb_is g beta Hb m mu)|].
  - apply (is_RInt_ext (V := R_NormedModule) (fun _ => 0)); [intros t _; unfold compact_R, Rdiv; eqR; ring|]. pose proof (is_RInt_const (V := R_NormedModule) 0 1 (0 : R)) as H. unfold scal in H; simpl in H; unfold mult in H; simpl in H. rewrite Rmult_0_r in H. exact H.
  - intros q _. unfold fT. apply Rmult_le_pos; [apply wc_nonneg|]. rewrite fermi_R. left. apply Rinv_0_lt_compat. pose proof (exp_pos ((energy q m - mu) * beta)). lra.
Qed.
Lemma one_minus_exp x : 1 - exp (- x) <= x.
Proof. pose proof (exp_ineq1_le (- x)). lra. Qed.
Lemma Nb_lip a b : a <= b -> 0 <= Nb b - Nb a <= beta * (b - a) * Nb b.
Proof.
  intros L. destruct (Nb_step g beta Hb m a (b - a) ltac:(lra)) as (S1 & S2). replace (a + (b - a)) with b in * by ring. split; [lra|].
  pose proof (Nb_nonneg b) as P. assert (X : exp (- (beta * (b - a))) * Nb b <= Nb a).
  { apply Rmult_le_reg_l with (exp (beta * (b - a))); [apply exp_pos|]. rewrite <- Rmult_assoc, <- exp_plus. replace (beta * (b - a) + - (beta * (b - a))) with 0 by ring. rewrite exp_0. lra. }
  pose proof (one_minus_exp (beta * (b - a))). nra.
Qed.
Lemma cd_lip a b : 0 <= a -> a <= b -> cd b - cd a <= 2 * beta * Nb b * (b - a).
Proof.
  intros Ha L. rewrite !(cd_Nb J g beta I HJ Hb m). destruct (Nb_lip a b L) as (_ & L1). destruct (Nb_lip (- b) (- a) ltac:(lra)) as (L0 & L2).
  destruct (Nb_lip (- a) b ltac:(lra)) as (L3 & _). assert (beta * (b - a) * Nb (- a) <= beta * (b - a) * Nb b) by (apply Rmult_le_compat_l; nra). nra.
Qed.
Lemma exp_mono x y : x <= y -> exp x <= exp y.
Proof. intros [L|L]; [left; now apply exp_increasing|right; now rewrite L]. Qed.
Lemma Nb_gap a : a <= Rabs m -> Nb a <= 2 * exp (- (beta * (Rabs m - a))) * Nb (Rabs m).
Proof.
  intros L. set (k := exp (- (beta * (Rabs m - a)))).
  assert (X : is_RInt (compact_R (fun q => 2 * k * fT m (Rabs m) (wc (g_nc g)) beta q)) 0 1 (2 * k * Nb (Rabs m))).
  { eapply is_RInt_ext; [|exact (is_RInt_scal (V := R_NormedModule) _ _ _ (2 * k) _ (Nb_is g beta Hb m (Rabs m)))]. intros t _. unfold compact_R, scal; simpl; unfold mult; simpl. unfold Rdiv. ring. }
  apply (compact_le _ _ _ _ (Nb_is g beta Hb m a) X). intros q Hq. unfold fT. rewrite <- Rmult_assoc, (Rmult_comm (2 * k)), Rmult_assoc. apply Rmult_le_compat_l; [apply wc_nonneg|]. rewrite !fermi_R.
  assert (E : Rabs m <= energy (T := R) q m). { rewrite energy_R. rewrite <- sqrt_Rsqr_abs. apply sqrt_le_1; unfold Rsqr; nra. }
  set (x := exp ((energy q m - Rabs m) * beta)). assert (1 <= x) by (unfold x; rewrite <- exp_0; apply exp_mono; nra).
  assert (Hk : 0 < k <= 1). { unfold k. split; [apply exp_pos|]. rewrite <- exp_0. apply exp_mono. nra. }
  replace (exp ((energy q m - a) * beta)) with (x / k). 2:{ unfold x, k, Rdiv. rewrite <- exp_Ropp, <- exp_plus. f_equal. ring. }
  assert (0 < x / k) by (apply Rdiv_lt_0_compat; lra).
  apply Rle_trans with (/ (x / k)); [apply Rinv_le_contravar; lra|]. replace (/ (x / k)) with (k * / x) by (field; lra). rewrite (Rmult_comm 2 k), Rmult_assoc. apply Rmult_le_compat_l; [lra|].
  apply Rmult_le_reg_r with (x * (x + 1)); [nra|]. replace (/ x * (x * (x + 1))) with (x + 1) by (field; lra). replace (2 * / (x + 1) * (x * (x + 1))) with (2 * x) by (field; lra). lra.
Qed.
(** the particles alone at the edge of the gap *)
Definition mless (mu : R) : R := INR (g_nc g) * (mu * mu * mu / (3 * (PI * PI)) + mu / (3 * (beta * beta))).
Lemma Nb_edge : 4 <= exp (2 * beta * Rabs m) -> Nb (Rabs m) <= 2 * mless (Rabs m).
Proof.
  intros H4. pose proof (Rabs_pos m) as Hm. pose proof (proj2 (proj2 (cd_mass J g beta (Rabs m) I HJ Hb Hm) m)) as U. cbv zeta in U. fold (mless (Rabs m)) in U.
  rewrite (cd_Nb J g beta I HJ Hb m) in U. pose proof (Nb_gap (- Rabs m) ltac:(lra)) as G. pose proof (Nb_nonneg (Rabs m)) as P.
  replace (- (beta * (Rabs m - - Rabs m))) with (- (2 * beta * Rabs m)) in G by ring. rewrite exp_Ropp in G.
  assert (/ exp (2 * beta * Rabs m) <= / 4) by (apply Rinv_le_contravar; lra). nra.
Qed.
Lemma Nb_small a : a <= Rabs m -> 4 <= exp (2 * beta * Rabs m) -> Nb a <= 4 * exp (- (beta * (Rabs m - a))) * mless (Rabs m).
Proof. intros L H4. pose proof (Nb_gap a L). pose proof (Nb_edge H4). pose proof (exp_pos (- (beta * (Rabs m - a)))). nra. Qed.

(** explicit conditions under which the search fails *)
Lemma fails_if n M K : 0 < n < M -> M <= Rabs m -> 0 < get_tol I < n -> 4 <= exp (2 * beta * Rabs m) ->
  let nu := 4 * exp (- (beta * (Rabs m - M))) * mless (Rabs m) in
  nu <= n - get_tol I -> 2 * Rabs m <= K -> n <= K -> 24 * (PI * PI) * (1000 * n / (M - n) + 2) <= K * K ->
  2 * beta * nu * K <= get_tol I ->
  chemical_potential_with_method J g m beta n I = Panic /\ chemical_potential_with_method J g m beta (- n) I = Panic.
Proof.
  intros (Hn & HnM) HM (Ht & Htn) H4 nu Hnu HK1 HK2 HK3 He. pose proof PI_RGT_0 as HPI. pose proof (lt_0_INR _ Hnc) as HN. assert (HN1 : 1 <= INR (g_nc g)) by (apply (le_INR 1); lia).
  pose proof (Nb_small M HM H4) as B. fold nu in B. pose proof (Nb_nonneg M) as BP.
  assert (Hm : 0 < Rabs m) by lra.
  assert (Hnup : 0 < nu). { unfold nu. apply Rmult_lt_0_compat; [pose proof (exp_pos (- (beta * (Rabs m - M)))); lra|]. unfold mless. apply Rmult_lt_0_compat; auto. assert (0 < Rabs m * Rabs m) by nra. apply Rplus_lt_0_compat; apply Rdiv_lt_0_compat; auto; nra. }
  set (S := 1000 * n / (M - n) + 1). assert (S0 : 0 < 1000 * n / (M - n)) by (apply Rdiv_lt_0_compat; lra). assert (HS : 0 < S) by (unfold S; lra).
  set (e := 2 * beta * nu). assert (Hep : 0 < e) by (unfold e; nra).
  assert (HKe : K <= get_tol I / e). { apply Rmult_le_reg_r with e; auto. unfold Rdiv. rewrite Rmult_assoc, Rinv_l by lra. rewrite (Rmult_comm K). unfold e. lra. }
  assert (inc : forall a b, a < b -> cd a < cd b) by (intros; now apply cd_increasing).
  assert (R0 : find_root RootOpsR (fun mu => n - cd mu) (5 / 10 * n, n) (get_tol I) 1000 = Ret None).
  { apply (search_fails (fun mu => cd mu) n M e (get_tol I) S); auto.
    - apply (cd_0 J g beta I HJ Hb).
    - intros a b Ha Lab LbM. apply Rle_trans with (1 := cd_lip a b Ha Lab). unfold e. apply Rmult_le_compat_r; [lra|]. apply Rmult_le_compat_l; [lra|]. apply Rle_trans with (2 := B). pose proof (proj1 (Nb_lip b M LbM)). lra.
    - rewrite (cd_Nb J g beta I HJ Hb m). pose proof (Nb_nonneg (- M)). lra.
    - intros z Hz. assert (Kz : K <= z) by lra. pose proof (proj1 (proj2 (cd_mass J g beta z I HJ Hb ltac:(lra)) m)) as U. cbv zeta in U. apply Rle_trans with (2 := U).
      set (x := z - Rabs m). assert (Hx : z / 2 <= x) by (unfold x; lra). assert (Hz0 : 0 < z) by lra.
      assert (P3 : 0 < / (3 * (PI * PI))) by (apply Rinv_0_lt_compat; nra).
      assert (C : (z / 2) * (z / 2) * (z / 2) <= x * x * x) by (repeat apply Rmult_le_compat; nra).
      assert (Q1 : 0 <= x / (3 * (beta * beta))) by (apply Rdiv_le_0_compat; nra).
      apply Rle_trans with (x * x * x / (3 * (PI * PI))).
      2:{ assert (0 <= x * x * x / (3 * (PI * PI))) by (apply Rdiv_le_0_compat; [repeat apply Rmult_le_pos|]; nra). nra. }
      apply Rle_trans with ((z / 2) * (z / 2) * (z / 2) / (3 * (PI * PI))); [|apply Rmult_le_compat_r; lra].
      apply Rmult_le_reg_r with (24 * (PI * PI)); [nra|]. replace (z / 2 * (z / 2) * (z / 2) / (3 * (PI * PI)) * (24 * (PI * PI))) with (z * (z * z)) by (field; lra).
      assert (KK : K * K <= z * z) by (apply Rmult_le_compat; lra). apply Rle_trans with (z * (24 * (PI * PI) * (1000 * n / (M - n) + 2))).
      2:{ apply Rmult_le_compat_l; lra. }
      replace ((n + S * z) * (24 * (PI * PI))) with (24 * (PI * PI) * (n + S * z)) by ring. replace (z * (24 * (PI * PI) * (1000 * n / (M - n) + 2))) with (24 * (PI * PI) * (z * (1000 * n / (M - n) + 2))) by ring. apply Rmult_le_compat_l; [nra|].
      unfold S. replace (z * (1000 * n / (M - n) + 2)) with ((1000 * n / (M - n) + 1) * z + z) by ring. lra.
    - apply Rle_trans with (1 * (get_tol I / e)); [|apply Rmult_le_compat_r; unfold S; lra].
      apply Rle_trans with n; lra.
    - assert (INR 1000 = 1000) as -> by (rewrite INR_IZR_INZ; reflexivity). assert (1000 * (n / S) <= M - n); [|lra].
      apply Rmult_le_reg_r with S; auto. replace (1000 * (n / S) * S) with (1000 * n) by (field; lra). unfold S. replace ((M - n) * (1000 * n / (M - n) + 1)) with (1000 * n + (M - n)) by (field; lra). lra. }
  split.
  - unfold chemical_potential_with_method. destruct (Req_EM_T n 0); [lra|]. rewrite R0. reflexivity.
  - unfold chemical_potential_with_method. destruct (Req_EM_T (- n) 0); [lra|].
    assert (R1 : find_root RootOpsR (fun mu => - n - cd mu) (5 / 10 * - n, - n) (get_tol I) 1000 = Ret None).
    { revert R0. unfold find_root. simpl ro_eq. simpl ro_pos. cbv beta. simpl fst. simpl snd.
      destruct (Req_EM_T (5 / 10 * n) n); [lra|]. destruct (Req_EM_T (5 / 10 * - n) (- n)); [lra|]. destruct (Rlt_dec 0 (get_tol I)); [|lra]. cbv [negb]. intros R0. apply f_equal.
      replace (5 / 10 * - n) with (- (5 / 10 * n)) by ring.
      apply (loop_mirror (fun mu => n - cd mu) (fun mu => - n - cd mu)).
      - intros z. rewrite (cd_odd J g beta I HJ Hb). ring.
      - congruence. }
    rewrite R1. reflexivity.
Qed.
End Cold.
