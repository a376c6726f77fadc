(** * Integrals of the thermal weights *)
From Coq Require Import Reals Psatz Lia.
From Coquelicot Require Import Coquelicot.
From Verif Require Import SpecLim SpecHtl PLim PBasel.
Open Scope R_scope.

Notation R0 := (at_right 0).
(** ** Improper integrals on the half-line *)
Lemma gen_intro (f : R -> R) (l : R) :
  (forall eps, 0 < eps -> exists d M, 0 < d /\ forall a b, 0 < a < d -> M < b -> exists y, is_RInt f a b y /\ Rabs (y - l) < eps) ->
  is_RInt_gen f R0 INF l.
Proof.
  intros H P [e He]. destruct (H e (cond_pos e)) as (d & M & Hd & K).
  exists (fun a => 0 < a < d) (fun b => M < b).
  - apply (ev_right _ 0 d); auto.
  - exists M. auto.
  - intros a b Ha Hb. destruct (K a b Ha Hb) as (y & Hy & Hl). exists y. split; [exact Hy|]. apply He. exact Hl.
Qed.
Lemma gen_elim (f : R -> R) (l : R) : is_RInt_gen f R0 INF l ->
  forall eps, 0 < eps -> exists d M, 0 < d /\ forall a b, 0 < a < d -> M < b -> exists y, is_RInt f a b y /\ Rabs (y - l) < eps.
Proof.
  intros H eps He. destruct (H (fun y => Rabs (y - l) < eps)) as [Q S HQ HS HP].
  { exists (mkposreal eps He). intros y Hy. exact Hy. }
  destruct HQ as [d Hd]. destruct HS as [M HM]. exists d, M. split; [apply cond_pos|]. intros a b Ha Hb.
  apply (HP a b); [apply Hd; [|lra]|now apply HM]. unfold ball; simpl. unfold AbsRing_ball, abs, minus, plus, opp; simpl. rewrite Ropp_0, Rplus_0_r, Rabs_pos_eq; lra.
Qed.
Lemma gen_scale (f : R -> R) (l c : R) : 0 < c -> is_RInt_gen f R0 INF l -> is_RInt_gen (fun x => c * f (c * x)) R0 INF l.
Proof.
  intros Hc H. apply gen_intro. intros eps He. destruct (gen_elim f l H eps He) as (d & M & Hd & K).
  exists (d / c), (M / c). split; [now apply Rdiv_lt_0_compat|]. intros a b [Ha Ha'] Hb.
  assert (E : d = c * (d / c)) by (field; lra). assert (E' : M = c * (M / c)) by (field; lra).
  destruct (K (c * a) (c * b)) as (y & Hy & Hl).
  - rewrite E. split; nra.
  - rewrite E'. nra.
  - exists y. split; auto. pose proof (is_RInt_comp_lin (V := R_NormedModule) f c 0 a b y) as L. rewrite !Rplus_0_r in L. specialize (L Hy).
    eapply is_RInt_ext; [|exact L]. intros x _. unfold scal; simpl. unfold mult; simpl. now rewrite Rplus_0_r.
Qed.
Lemma gen_lin (f g : R -> R) (u v c d : R) : is_RInt_gen f R0 INF u -> is_RInt_gen g R0 INF v -> is_RInt_gen (fun x => c * f x + d * g x) R0 INF (c * u + d * v).
Proof.
  intros H1 H2. apply (is_RInt_gen_plus (V := R_NormedModule)); apply (is_RInt_gen_scal (V := R_NormedModule)); auto.
Qed.
Lemma gen_ext (f g : R -> R) (l : R) : (forall x, 0 < x -> f x = g x) -> is_RInt_gen f R0 INF l -> is_RInt_gen g R0 INF l.
Proof.
  intros E H. apply gen_intro. intros eps He. destruct (gen_elim f l H eps He) as (d & M & Hd & K). exists d, (Rmax M 0). split; auto. intros a b Ha Hb.
  pose proof (Rmax_l M 0). pose proof (Rmax_r M 0). destruct (K a b Ha) as (y & Hy & Hl); [lra|]. exists y. split; auto. eapply is_RInt_ext; [|exact Hy].
  intros x Hx. apply E. unfold Rmin in Hx. destruct (Rle_dec a b); lra.
Qed.

(** ** Bose *)
Definition bose1 (x : R) : R := x / (exp x - 1).
Definition expint (n : nat) (x : R) : R := - (x / INR (S n) + / (INR (S n) * INR (S n))) * exp (- (INR (S n) * x)).
Lemma SnP n : 0 < INR (S n). Proof. apply lt_0_INR. lia. Qed.
Lemma expint_d n x : is_derive (expint n) x (x * exp (- (INR (S n) * x))).
Proof. pose proof (SnP n). unfold expint. set (N := INR (S n)) in *. auto_derive; auto. field. lra. Qed.
Definition esum (N : nat) (x : R) : R := sum_n (fun n => expint n x) N.
Definition dsum (N : nat) (x : R) : R := sum_n (fun n => x * exp (- (INR (S n) * x))) N.
Lemma esum_d N x : is_derive (esum N) x (dsum N x).
Proof.
  unfold esum, dsum. apply (is_derive_ext (fun x => sum_n (fun n => expint n x) N)); [auto|]. induction N as [|N IH].
  - apply (is_derive_ext (expint 0)); [intros; now rewrite sum_O|]. rewrite sum_O. apply expint_d.
  - apply (is_derive_ext (fun x => plus (sum_n (fun n => expint n x) N) (expint (S N) x))); [intros; now rewrite sum_Sn|]. rewrite sum_Sn.
    apply (is_derive_plus (V := R_NormedModule)); [exact IH|apply expint_d].
Qed.
Lemma dsum_c N x : continuous (dsum N) x.
Proof.
  unfold dsum. induction N as [|N IH].
  - apply (continuous_ext (fun x => x * exp (- (INR 1 * x)))); [intros; now rewrite sum_O|]. apply (ex_derive_continuous (K := R_AbsRing) (V := R_NormedModule)). auto_derive. auto.
  - apply (continuous_ext (fun x => plus (sum_n (fun n => x * exp (- (INR (S n) * x))) N) (x * exp (- (INR (S (S N)) * x))))); [intros; now rewrite sum_Sn|].
    apply (continuous_plus (V := R_NormedModule)); [exact IH|]. apply (ex_derive_continuous (K := R_AbsRing) (V := R_NormedModule)). auto_derive. auto.
Qed.
Lemma bose1_den x : 0 < x -> x < exp x - 1.
Proof. intros H. pose proof (exp_ineq1 x ltac:(lra)). lra. Qed.
Lemma bose1_split N x : 0 < x -> bose1 x = dsum N x + exp (- (INR (S N) * x)) * bose1 x.
Proof.
  intros H. pose proof (bose1_den x H). unfold bose1, dsum. induction N as [|N IH].
  - rewrite sum_O. simpl INR. rewrite Rmult_1_l, exp_Ropp. pose proof (exp_pos x). field. split; lra.
  - rewrite sum_Sn. rewrite IH at 1. unfold plus; simpl. change (match N with 0%nat => 1 | S _ => INR N + 1 end) with (INR (S N)).
    replace (- ((INR (S N) + 1) * x)) with (- (INR (S N) * x) + - x) by ring. rewrite exp_plus, (exp_Ropp x). pose proof (exp_pos x). field. split; lra.
Qed.
Lemma bose1_c x : 0 < x -> continuous bose1 x.
Proof. intros H. pose proof (bose1_den x H). apply (ex_derive_continuous (K := R_AbsRing) (V := R_NormedModule)). unfold bose1. auto_derive. lra. Qed.
Lemma bose1_ex a b : 0 < a -> a <= b -> ex_RInt bose1 a b.
Proof. intros Ha Hb. apply (ex_RInt_continuous (V := R_CompleteNormedModule)). intros z Hz. rewrite Rmin_left, Rmax_right in Hz by auto. apply bose1_c. lra. Qed.
Lemma bose1_near N a b : 0 < a -> a <= b -> Rabs (RInt bose1 a b - (esum N b - esum N a)) <= / INR (S N).
Proof.
  intros Ha Hb. pose proof (SnP N) as HN. set (M := INR (S N)) in *.
  pose proof (RInt_correct _ _ _ (bose1_ex a b Ha Hb)) as H1. pose proof (ftc (esum N) (dsum N) a b (esum_d N) (dsum_c N)) as H2.
  pose proof (lin2 _ _ _ _ 1 (-1) _ _ H1 H2) as H3. replace (RInt bose1 a b - (esum N b - esum N a)) with (1 * RInt bose1 a b + -1 * (esum N b - esum N a)) by ring.
  assert (E : forall x, a < x < b -> 0 <= 1 * bose1 x + -1 * dsum N x <= exp (- (M * x))).
  { intros x Hx. assert (Hx0 : 0 < x) by lra. rewrite (bose1_split N x Hx0). fold M. pose proof (bose1_den x Hx0). pose proof (exp_pos (- (M * x))).
    assert (0 <= bose1 x <= 1). { unfold bose1. split; [apply Rmult_le_pos; [lra|left; apply Rinv_0_lt_compat; lra]|]. apply (Rmult_le_reg_r (exp x - 1)); [lra|]. unfold Rdiv. rewrite Rmult_assoc, Rinv_l; lra. }
    set (t := exp (- (M * x))) in *. nra. }
  assert (H4 : is_RInt (fun x => exp (- (M * x))) a b (- / M * exp (- (M * b)) - - / M * exp (- (M * a)))).
  { apply (ftc (fun x => - / M * exp (- (M * x)))).
    - intros x. auto_derive; auto. field. lra.
    - intros x. apply (ex_derive_continuous (K := R_AbsRing) (V := R_NormedModule)). auto_derive. auto. }
  rewrite Rabs_pos_eq.
  - eapply Rle_trans; [eapply (is_RInt_le _ _ a b); [exact Hb|exact H3|exact H4|intros; apply E; auto]|].
    assert (0 < / M) by now apply Rinv_0_lt_compat. pose proof (exp_pos (- (M * b))). assert (exp (- (M * a)) <= 1) by (rewrite <- exp_0; left; apply exp_increasing; nra). nra.
  - assert (H5 : is_RInt (fun _ : R => 0) a b ((b - a) * 0)) by (apply (is_RInt_const (V := R_NormedModule))). rewrite Rmult_0_r in H5. eapply (is_RInt_le _ _ a b); [exact Hb|exact H5|exact H3|intros; apply E; auto].
Qed.
Lemma esum_0 N : tends R0 (esum N) (- zsum N).
Proof.
  pose proof (tends_id_right 0) as X. assert (E : esum N 0 = - zsum N).
  { unfold esum, zsum. induction N as [|N IH].
    - rewrite !sum_O. unfold expint. pose proof (SnP 0). rewrite Rmult_0_r, Ropp_0, exp_0. field. lra.
    - rewrite !sum_Sn, IH. unfold plus, expint; cbn -[INR]. pose proof (SnP (S N)). rewrite Rmult_0_r, Ropp_0, exp_0. set (M := INR (S (S N))) in *. field. split; [lra|simpl; lra]. }
  rewrite <- E. apply (tends_comp (esum N)); auto. apply (ex_derive_continuous (K := R_AbsRing) (V := R_NormedModule)). exists (dsum N 0). apply esum_d.
Qed.
Lemma expint_inf n : tends INF (expint n) 0.
Proof.
  pose proof (SnP n) as HN. set (M := INR (S n)) in *.
  apply (tends_squeeze0 _ (fun x => (4 / (M * M * M) + / (M * M * M)) * / x)).
  - exists 1. intros x Hx. unfold expint. fold M. assert (HMx : 0 < M * x) by nra.
    assert (Hq : M * x * (M * x) / 4 <= exp (M * x)).
    { pose proof (exp_ineq1 (M * x / 2) ltac:(lra)) as L. replace (exp (M * x)) with (exp (M * x / 2) * exp (M * x / 2)) by (rewrite <- exp_plus; f_equal; field). nra. }
    pose proof (exp_ineq1 (M * x) ltac:(lra)) as L1. pose proof (exp_pos (M * x)). rewrite exp_Ropp.
    assert (0 < x / M) by (apply Rdiv_lt_0_compat; lra). assert (0 < / (M * M)) by (apply Rinv_0_lt_compat; nra).
    rewrite Ropp_mult_distr_l_reverse, Rabs_Ropp, Rabs_pos_eq by (apply Rmult_le_pos; [lra|left; now apply Rinv_0_lt_compat]).
    rewrite !Rmult_plus_distr_r. apply Rplus_le_compat.
    + apply Rle_trans with (x / M * / (M * x * (M * x) / 4)); [apply Rmult_le_compat_l; [lra|]; apply Rinv_le_contravar; nra|]. right. field. lra.
    + apply Rle_trans with (/ (M * M) * / (M * x)); [apply Rmult_le_compat_l; [lra|]; apply Rinv_le_contravar; lra|]. right. field. lra.
  - eapply tends_eq; [|apply tends_mult; [apply tends_const|apply tends_inv_infty]]. ring.
Qed.
Lemma esum_inf N : tends INF (esum N) 0.
Proof.
  unfold esum. induction N as [|N IH].
  - apply (tends_ext (expint 0)); [apply filter_forall; intros; now rewrite sum_O|apply expint_inf].
  - apply (tends_ext (fun x => sum_n (fun n => expint n x) N + expint (S N) x)); [apply filter_forall; intros; now rewrite sum_Sn|].
    eapply tends_eq; [|apply tends_plus; [exact IH|apply expint_inf]]. ring.
Qed.
Lemma tends_R0_elim f l eps : 0 < eps -> tends R0 f l -> exists d, 0 < d /\ forall x, 0 < x < d -> Rabs (f x - l) < eps.
Proof.
  intros He H. destruct (H (fun y => Rabs (y - l) < eps)) as [d Hd]; [exists (mkposreal eps He); intros y Hy; exact Hy|].
  exists d. split; [apply cond_pos|]. intros x Hx. apply Hd; [|lra]. unfold ball; simpl. unfold AbsRing_ball, abs, minus, plus, opp; simpl. rewrite Ropp_0, Rplus_0_r, Rabs_pos_eq; lra.
Qed.
Lemma tends_INF_elim f l eps : 0 < eps -> tends INF f l -> exists M, forall x, M < x -> Rabs (f x - l) < eps.
Proof.
  intros He H. destruct (H (fun y => Rabs (y - l) < eps)) as [M HM]; [exists (mkposreal eps He); intros y Hy; exact Hy|]. exists M. exact HM.
Qed.
Lemma bose1_int : is_RInt_gen bose1 R0 INF (PI * PI / 6).
Proof.
  apply gen_intro. intros eps He. 
  destruct (archimed_cor1 (eps / 8) ltac:(lra)) as (N & HN & HNp).
  destruct (tends_R0_elim _ _ (eps / 8) ltac:(lra) (esum_0 N)) as (d & Hd & Kd). destruct (tends_INF_elim _ _ (eps / 8) ltac:(lra) (esum_inf N)) as (M & KM).
  exists d, (Rmax M d). split; auto. intros a b Ha Hb. pose proof (Rmax_l M d). pose proof (Rmax_r M d).
  exists (RInt bose1 a b). split; [apply (RInt_correct (V := R_CompleteNormedModule)), bose1_ex; lra|].
  pose proof (bose1_near N a b ltac:(lra) ltac:(lra)) as L1. specialize (Kd a Ha). specialize (KM b ltac:(lra)). pose proof (zsum_bound N) as L2.
  assert (HNI : 0 < INR N) by (apply lt_0_INR; lia).
  assert (/ INR (S N) <= / INR N) by (apply Rinv_le_contravar; auto; rewrite S_INR; lra).
  assert (2 / (2 * INR N + 1) <= / INR N). { unfold Rdiv. replace (/ INR N) with (2 * / (2 * INR N)) by (field; lra). apply Rmult_le_compat_l; [lra|]. apply Rinv_le_contravar; lra. }
  apply Rabs_def2 in Kd. apply Rabs_def2 in KM. apply Rabs_le_between in L1. apply Rabs_le_between in L2. apply Rabs_def1; lra.
Qed.
Lemma boson_weight_int T : 0 < T -> is_RInt_gen (boson_weight T) R0 INF 1.
Proof.
  intros HT. pose proof PI_neq0. pose proof (gen_scale _ _ (/ T) (Rinv_0_lt_compat _ HT) bose1_int) as H1.
  pose proof (is_RInt_gen_scal (V := R_NormedModule) _ (6 / (PI * PI)) _ H1) as H2.
  replace 1 with (scal (6 / (PI * PI)) (PI * PI / 6)) by (unfold scal; simpl; unfold mult; simpl; field; auto).
  eapply gen_ext; [|exact H2]. intros x Hx. unfold scal; simpl. unfold mult; simpl. unfold boson_weight, bose1. replace (/ T * x) with (x / T) by (field; lra).
  assert (0 < x / T) by (apply Rdiv_lt_0_compat; auto). pose proof (bose1_den (x / T) H0). field. repeat split; auto; lra.
Qed.
