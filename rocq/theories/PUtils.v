(** * Proofs about utils.rs *)
From Coq Require Import Reals List Bool Psatz Lia.
From Coquelicot Require Import Coquelicot.
From Verif Require Import Num CField MConsts MUtils SpecConsts.
Import ListNotations.
Open Scope R_scope.

Section Root.
Context {T Tol : Type} (Ops : RootOps T Tol).

Definition next (f : T -> T) (a b : T) : T :=
  ro_div Ops (ro_sub Ops (ro_mul Ops a (f b)) (ro_mul Ops b (f a))) (ro_sub Ops (f b) (f a)).

Lemma loop_sound f tol n : forall z0 z1 z w,
  find_root_loop Ops f tol n z0 z1 (f z0) (f z1) = Some (z, w) ->
  w = f z /\ ro_nan Ops w = false /\ ro_small Ops w tol = true.
Proof.
  induction n; intros z0 z1 z w; simpl; [discriminate|].
  destruct (ro_nan Ops (f z1)) eqn:N; [discriminate|].
  destruct (ro_small Ops (f z1) tol) eqn:S.
  - intros E. injection E as <- <-. auto.
  - apply IHn.
Qed.

Lemma find_root_sound f gs tol n z w :
  find_root Ops f gs tol n = Ret (Some (z, w)) ->
  w = f z /\ ro_nan Ops w = false /\ ro_small Ops w tol = true.
Proof.
  unfold find_root. destruct (ro_eq _ _ _); [discriminate|]. destruct (negb _); [discriminate|].
  intros E. injection E as E. eapply loop_sound; eauto.
Qed.

Lemma find_root_panic f gs tol n :
  find_root Ops f gs tol n = Panic <-> (ro_eq Ops (fst gs) (snd gs) = true \/ ro_pos Ops tol = false).
Proof.
  unfold find_root. destruct (ro_eq _ _ _); [tauto|]. destruct (ro_pos Ops tol); simpl; split; intros H; auto; try discriminate; destruct H; discriminate.
Qed.

(** The loop examines exactly the secant iterates 1, 2, ..., n. *)
Lemma loop_some f tol n : forall z0 z1 z w,
  find_root_loop Ops f tol n z0 z1 (f z0) (f z1) = Some (z, w) <->
  exists k, (k < n)%nat /\ z = secant Ops f z0 z1 (S k) /\ w = f z /\ ro_nan Ops w = false /\
    ro_small Ops w tol = true /\
    forall j, (j < k)%nat -> ro_nan Ops (f (secant Ops f z0 z1 (S j))) = false /\
                              ro_small Ops (f (secant Ops f z0 z1 (S j))) tol = false.
Proof.
  induction n; intros z0 z1 z w.
  - simpl. split; [discriminate|]. intros (k & H & _). lia.
  - cbn [find_root_loop]. destruct (ro_nan Ops (f z1)) eqn:N.
    { split; [discriminate|]. intros (k & Hk & -> & -> & HN & HS & Hj). destruct k.
      - simpl in HN. congruence.
      - specialize (Hj 0%nat ltac:(lia)). simpl in Hj. destruct Hj. congruence. }
    destruct (ro_small Ops (f z1) tol) eqn:S.
    + split.
      * intros E. injection E as <- <-. exists 0%nat. simpl. repeat split; auto; try lia.
      * intros (k & Hk & -> & -> & HN & HS & Hj). destruct k.
        -- reflexivity.
        -- specialize (Hj 0%nat ltac:(lia)). simpl in Hj. destruct Hj. congruence.
    + rewrite IHn. split.
      * intros (k & Hk & -> & -> & HN & HS & Hj). exists (Datatypes.S k). split; [lia|].
        split; [reflexivity|]. split; [reflexivity|]. split; [exact HN|]. split; [exact HS|].
        intros [|j] Hlt; [split; assumption|]. apply (Hj j). lia.
      * intros (k & Hk & -> & -> & HN & HS & Hj). destruct k.
        -- simpl in HS. congruence.
        -- exists k. split; [lia|]. split; [reflexivity|]. split; [reflexivity|]. split; [exact HN|]. split; [exact HS|].
           intros j Hlt. apply (Hj (Datatypes.S j)). lia.
Qed.

Lemma find_root_some f a b tol n z w : ro_eq Ops a b = false -> ro_pos Ops tol = true ->
  (find_root Ops f (a, b) tol n = Ret (Some (z, w)) <->
  exists k, (k < n)%nat /\ z = secant Ops f a b (S k) /\ w = f z /\ ro_nan Ops w = false /\
    ro_small Ops w tol = true /\
    forall j, (j < k)%nat -> ro_nan Ops (f (secant Ops f a b (S j))) = false /\
                              ro_small Ops (f (secant Ops f a b (S j))) tol = false).
Proof.
  intros E P. unfold find_root. simpl fst; simpl snd. rewrite E, P. simpl negb. cbv iota.
  rewrite <- loop_some. split; [intros H; now injection H | now intros ->].
Qed.

Lemma loop_none f tol n : forall z0 z1,
  find_root_loop Ops f tol n z0 z1 (f z0) (f z1) = None ->
  (forall k, (k < n)%nat -> ro_nan Ops (f (secant Ops f z0 z1 (S k))) = false) ->
  forall k, (k < n)%nat -> ro_small Ops (f (secant Ops f z0 z1 (S k))) tol = false.
Proof.
  induction n; intros z0 z1 H HN k Hk; [lia|].
  simpl in H. pose proof (HN 0%nat ltac:(lia)) as N0. simpl in N0. rewrite N0 in H.
  destruct (ro_small Ops (f z1) tol) eqn:S; [discriminate|].
  destruct k; [exact S|].
  apply (IHn z1 (next f z0 z1) H); [|lia].
  intros j Hj. apply (HN (Datatypes.S j)). lia.
Qed.

Lemma find_root_none f a b tol n : 
  find_root Ops f (a, b) tol n = Ret None ->
  (forall k, (k < n)%nat -> ro_nan Ops (f (secant Ops f a b (S k))) = false) ->
  forall k, (k < n)%nat -> ro_small Ops (f (secant Ops f a b (S k))) tol = false.
Proof.
  unfold find_root. simpl fst; simpl snd. destruct (ro_eq _ _ _); [discriminate|]. destruct (negb _); [discriminate|].
  intros E. injection E as E. now apply loop_none.
Qed.

Lemma find_root_zero f gs tol : find_root Ops f gs tol 0 <> Panic -> find_root Ops f gs tol 0 = Ret None.
Proof. unfold find_root. destruct (ro_eq _ _ _); [congruence|]. destruct (negb _); [congruence|]. reflexivity. Qed.

(** Evaluation budget, as locality. *)
Lemma loop_local f tol n : forall z0 z1 f0 f1, exists l, (length l <= n)%nat /\
  forall f', (forall x, In x l -> f' x = f x) ->
  find_root_loop Ops f' tol n z0 z1 f0 f1 = find_root_loop Ops f tol n z0 z1 f0 f1.
Proof.
  induction n; intros.
  - exists []. simpl. auto.
  - set (z2 := ro_div Ops (ro_sub Ops (ro_mul Ops z0 f1) (ro_mul Ops z1 f0)) (ro_sub Ops f1 f0)).
    destruct (IHn z1 z2 f1 (f z2)) as (l & Hl & H).
    exists (z2 :: l). split; [simpl; lia|]. intros f' Hf. simpl.
    destruct (ro_nan Ops f1); auto. destruct (ro_small Ops f1 tol); auto.
    fold z2. rewrite (Hf z2) by (left; auto). apply H. intros; apply Hf; right; auto.
Qed.

Lemma find_root_local f gs tol n : exists l, (length l <= n + 2)%nat /\
  forall f', (forall x, In x l -> f' x = f x) -> find_root Ops f' gs tol n = find_root Ops f gs tol n.
Proof.
  destruct gs as [a b].
  destruct (loop_local f tol n a b (f a) (f b)) as (l & Hl & H).
  exists (a :: b :: l). split; [simpl; lia|]. intros f' Hf.
  unfold find_root. simpl fst; simpl snd. destruct (ro_eq Ops a b); auto. destruct (negb _); auto.
  rewrite (Hf a), (Hf b) by (simpl; auto). rewrite H; auto. intros; apply Hf; simpl; auto.
Qed.
End Root.

(** ** Affine functions *)
Lemma affine_R a b x y tol n : a <> 0 -> x <> y -> 0 < tol -> (2 <= n)%nat ->
  tol <= Rabs (a * y + b) ->
  find_root RootOpsR (fun z => a * z + b) (x, y) tol n = Ret (Some (- b / a, 0)).
Proof.
  intros Ha Hxy Ht Hn Hy. destruct n as [|[|n]]; try lia.
  unfold find_root. simpl fst; simpl snd. cbn [ro_eq ro_pos RootOpsR].
  destruct (Req_EM_T x y); [contradiction|]. destruct (Rlt_dec 0 tol); [|contradiction].
  simpl negb. cbv iota. f_equal. cbn [find_root_loop ro_nan ro_small RootOpsR ro_div ro_sub ro_mul].
  destruct (Rlt_dec (Rabs (a * y + b)) tol); [lra|].
  assert (E : (x * (a * y + b) - y * (a * x + b)) / (a * y + b - (a * x + b)) = - b / a).
  { field. split; auto. intros Z. apply Hxy. apply (Rmult_eq_reg_l a); auto. lra. }
  rewrite E. replace (a * (- b / a) + b) with 0 by (field; auto).
  rewrite Rabs_R0. destruct (Rlt_dec 0 tol); [reflexivity|contradiction].
Qed.

Lemma affine_C (a b x y : C) tol n : a <> RtoC 0 -> x <> y -> 0 < tol -> (2 <= n)%nat ->
  tol <= Cmod (a * y + b)%C ->
  find_root RootOpsC (fun z => a * z + b)%C (x, y) tol n = Ret (Some (- b / a, RtoC 0)%C).
Proof.
  intros Ha Hxy Ht Hn Hy. destruct n as [|[|n]]; try lia.
  unfold find_root. simpl fst; simpl snd. cbn [ro_eq ro_pos RootOpsC].
  destruct (Ceq_dec x y); [contradiction|]. destruct (Rlt_dec 0 tol); [|contradiction].
  simpl negb. cbv iota. f_equal. cbn [find_root_loop ro_nan ro_small RootOpsC ro_div ro_sub ro_mul].
  destruct (Rlt_dec (Cmod (a * y + b)%C) tol); [lra|].
  assert (E : ((x * (a * y + b) - y * (a * x + b)) / (a * y + b - (a * x + b)) = - b / a)%C).
  { field. split; auto. intros Z. apply Hxy.
    assert (Z' : (a * (y - x) = 0)%C) by (rewrite <- Z; ring).
    destruct (Ceq_dec (y - x)%C 0) as [Q|Q].
    - symmetry. replace y with ((y - x) + x)%C by ring. rewrite Q. ring.
    - exfalso. now apply (Cmult_neq_0 a (y - x)%C). }
  rewrite E. replace (a * (- b / a) + b)%C with (RtoC 0) by (field; auto).
  rewrite Cmod_0. destruct (Rlt_dec 0 tol); [reflexivity|contradiction].
Qed.

(** ** Residues *)
Open Scope C_scope.

Lemma residue_exact_R (c z0 eps : R) : (c <> 0 -> eps <> 0 ->
  compute_residue_with_eps (fun z => c / (z - z0)) z0 eps = c)%R.
Proof.
  intros Hc He. unfold compute_residue_with_eps. cbn [nadd nsub nmul ninv ofR NumR].
  replace (z0 + eps - z0)%R with eps by ring. replace (z0 - eps - z0)%R with (- eps)%R by ring.
  field. repeat split; auto; lra.
Qed.

Lemma residue_exact_C (c z0 : C) (eps : R) : c <> 0 -> (eps <> 0)%R ->
  compute_residue_with_eps (fun z => c / (z - z0)) z0 eps = c.
Proof.
  intros Hc He. unfold compute_residue_with_eps. cbn [nadd nsub nmul ninv ofR NumC].
  replace (z0 + eps - z0) with (RtoC eps) by ring. replace (z0 - eps - z0) with (- RtoC eps) by ring.
  assert (RtoC eps <> 0) by (now apply RtoC_neq).
  assert (- RtoC eps <> 0). { intros E. apply H. replace (RtoC eps) with (- - RtoC eps) by ring. rewrite E. ring. }
  replace (/ (c / eps) - / (c / - eps)) with (2 * eps / c) by (field; repeat split; auto).
  field. repeat split; auto.
Qed.

Lemma Cmod_ge_diff (a b : C) : (Cmod a - Cmod b <= Cmod (a + b)%C)%R.
Proof.
  pose proof (Cmod_triangle (a + b) (- b)) as H. rewrite Cmod_opp in H.
  replace (a + b + - b) with a in H by ring. lra.
Qed.

Lemma Cneq_of_Cmod (a : C) : (0 < Cmod a)%R -> a <> 0.
Proof. intros H E. rewrite E, Cmod_0 in H. lra. Qed.

Lemma Cmod_sub_sym (a b : C) : Cmod (a - b)%C = Cmod (b - a)%C.
Proof. rewrite <- Cmod_opp. f_equal. ring. Qed.

Lemma harmonic_mean_close (c u v : C) (d : R) : c <> 0 -> (0 <= d <= Cmod c / 4)%R ->
  (Cmod (u - c)%C <= d)%R -> (Cmod (v - c)%C <= d)%R ->
  u <> 0 /\ v <> 0 /\ u + v <> 0 /\ (Cmod (2 * u * v / (u + v) - c)%C <= 4 * d)%R.
Proof.
  intros Hc Hd Hu Hv.
  assert (Pc : (0 < Cmod c)%R) by (now apply Cmod_gt_0).
  assert (U : (Cmod c - d <= Cmod u)%R).
  { pose proof (Cmod_ge_diff c (u - c)). replace (c + (u - c)) with u in H by ring. lra. }
  assert (V : (Cmod c - d <= Cmod v)%R).
  { pose proof (Cmod_ge_diff c (v - c)). replace (c + (v - c)) with v in H by ring. lra. }
  assert (U2 : (Cmod u <= Cmod c + d)%R).
  { pose proof (Cmod_triangle c (u - c)). replace (c + (u - c)) with u in H by ring. lra. }
  assert (V2 : (Cmod v <= Cmod c + d)%R).
  { pose proof (Cmod_triangle c (v - c)). replace (c + (v - c)) with v in H by ring. lra. }
  assert (S : (Cmod c <= Cmod (u + v)%C)%R).
  { pose proof (Cmod_ge_diff (2 * c) ((u - c) + (v - c))).
    replace (2 * c + (u - c + (v - c))) with (u + v) in H by ring.
    pose proof (Cmod_triangle (u - c) (v - c)).
    rewrite Cmod_mult, Cmod_R, Rabs_pos_eq in H by lra. lra. }
  assert (u <> 0) by (apply Cneq_of_Cmod; lra).
  assert (v <> 0) by (apply Cneq_of_Cmod; lra).
  assert (HS : u + v <> 0) by (apply Cneq_of_Cmod; lra).
  repeat split; auto.
  replace (2 * u * v / (u + v) - c) with ((u * (v - c) + v * (u - c)) / (u + v)) by (field; auto).
  rewrite Cmod_div by auto.
  apply (Rmult_le_reg_r (Cmod (u + v)%C)); [lra|].
  unfold Rdiv. rewrite Rmult_assoc, Rinv_l by lra. rewrite Rmult_1_r.
  eapply Rle_trans; [apply Cmod_triangle|]. rewrite !Cmod_mult.
  pose proof (Cmod_ge_0 u). pose proof (Cmod_ge_0 v). pose proof (Cmod_ge_0 (u - c)). pose proof (Cmod_ge_0 (v - c)).
  assert (Cmod u * Cmod (v - c)%C <= (2 * Cmod c) * d)%R by (apply Rmult_le_compat; lra).
  assert (Cmod v * Cmod (u - c)%C <= (2 * Cmod c) * d)%R by (apply Rmult_le_compat; lra).
  assert (4 * d * Cmod c <= 4 * d * Cmod (u + v)%C)%R by (apply Rmult_le_compat_l; lra).
  lra.
Qed.

Lemma residue_limit (f : C -> C) (z0 c : C) : c <> 0 -> simple_pole f z0 c ->
  Clim0 (fun eps => compute_residue_with_eps f z0 eps) c.
Proof.
  intros Hc HP e He.
  assert (Pc : (0 < Cmod c)%R) by (now apply Cmod_gt_0).
  pose (d := Rmin (Cmod c / 4) (e / 8)).
  assert (Hd : (0 < d)%R) by (unfold d; apply Rmin_pos; lra).
  destruct (HP d Hd) as (r & Hr & HB). exists r. split; auto. intros x Hx.
  assert (Nx : x <> 0%R) by (intros ->; rewrite Rabs_R0 in Hx; lra).
  assert (NX : RtoC x <> 0) by (now apply RtoC_neq).
  pose proof (HB (z0 + x)) as H1. pose proof (HB (z0 - x)) as H2.
  replace (z0 + x - z0) with (RtoC x) in H1 by ring.
  replace (z0 - x - z0) with (- RtoC x) in H2 by ring.
  rewrite Cmod_R in H1. rewrite Cmod_opp, Cmod_R in H2.
  specialize (H1 Hx). specialize (H2 Hx).
  destruct (harmonic_mean_close c (x * f (z0 + x)) (- x * f (z0 - x)) d) as (Hu & Hv & Hs & HL); auto; try lra.
  { split; [lra|]. unfold d. apply Rmin_l. }
  unfold compute_residue_with_eps. cbn [nadd nsub nmul ninv ofR NumC].
  assert (F1 : f (z0 + x) <> 0). { intros E. apply Hu. rewrite E. ring. }
  assert (F2 : f (z0 - x) <> 0). { intros E. apply Hv. rewrite E. ring. }
  replace (/ (/ f (z0 + x) - / f (z0 - x)) * 2 * x)
    with (2 * (x * f (z0 + x)) * (- x * f (z0 - x)) / (x * f (z0 + x) + - x * f (z0 - x))).
  2:{ assert (D : f (z0 - x) - f (z0 + x) <> 0).
      { intros E. apply Hs. replace (x * f (z0 + x) + - x * f (z0 - x)) with (- x * (f (z0 - x) - f (z0 + x))) by ring.
        rewrite E. ring. }
      field. repeat split; auto. }
  eapply Rle_lt_trans; [apply HL|]. unfold d. pose proof (Rmin_r (Cmod c / 4) (e / 8)). lra.
Qed.

(** ** Spectral function *)
Lemma PI_neq_C : RtoC PI <> 0.
Proof. apply RtoC_neq, PI_neq0. Qed.
Lemma two_neq_C : RtoC 2 <> 0.
Proof. apply RtoC_neq. lra. Qed.

Lemma spectral_linear (f g : C -> C) (a b z : C) (eps : R) :
  spectral_function_with_eps (fun w => a * f w + b * g w) z eps =
  a * spectral_function_with_eps f z eps + b * spectral_function_with_eps g z eps.
Proof.
  unfold spectral_function_with_eps. cbn [nadd nsub nmul ndiv ofR NumC].
  field. rewrite RtoC_mult. apply Cmult_neq_0; [apply two_neq_C | apply PI_neq_C].
Qed.

Lemma conj_shift (x eps : R) : RtoC x - Ci * eps = Cconj (RtoC x + Ci * eps).
Proof. apply Ceq; simpl; ring. Qed.

Lemma spectral_reflection (f : C -> C) (x eps : R) :
  (forall w, f (Cconj w) = Cconj (f w)) ->
  spectral_function_with_eps f x eps = RtoC (- snd (f (RtoC x + Ci * eps)) / PI).
Proof.
  intros H. unfold spectral_function_with_eps. cbn [nadd nsub nmul ndiv ofR NumC].
  rewrite conj_shift, H. destruct (f (x + Ci * eps)) as [u v].
  pose proof PI_neq0. pose proof PI_neq_C. pose proof two_neq_C.
  replace (Ci * ((u, v) - Cconj (u, v))) with (RtoC (- 2 * v)).
  2:{ apply Ceq; simpl; ring. }
  rewrite <- RtoC_div'. f_equal. simpl. field. auto.
Qed.

Lemma spectral_pole (c x0 x eps : R) : (0 < eps)%R ->
  spectral_function_with_eps (fun w => RtoC c / (w - RtoC x0)) x eps
  = RtoC (c / PI * (eps / ((x - x0) ^ 2 + eps ^ 2))).
Proof.
  intros He. assert (Q : (0 < (x - x0) ^ 2 + eps ^ 2)%R) by (apply Rplus_le_lt_0_compat; [apply pow2_ge_0 | apply pow_lt; auto]).
  unfold spectral_function_with_eps. cbn [nadd nsub nmul ndiv ofR NumC].
  rewrite RtoC_mult.
  pose proof PI_neq_C. pose proof two_neq_C.
  assert (N1 : RtoC x + Ci * eps - x0 <> 0). { intros E. apply (f_equal snd) in E. simpl in E. lra. }
  assert (N2 : RtoC x - Ci * eps - x0 <> 0). { intros E. apply (f_equal snd) in E. simpl in E. lra. }
  rewrite RtoC_mult, !RtoC_div'.
  replace (RtoC ((x - x0) ^ 2 + eps ^ 2)) with ((RtoC x + Ci * eps - x0) * (RtoC x - Ci * eps - x0)).
  2:{ apply Ceq; simpl; ring. }
  replace (Ci * (c / (x + Ci * eps - x0) - c / (x - Ci * eps - x0)) / (2 * PI))
   with (- (Ci * Ci) * (c / PI * (eps / ((x + Ci * eps - x0) * (x - Ci * eps - x0))))) by (field; repeat split; auto).
  rewrite Ci2. ring.
Qed.

Lemma spectral_no_cut (f : C -> C) (z : C) (eps : R) :
  f (z + Ci * eps) = f (z - Ci * eps) -> spectral_function_with_eps f z eps = 0.
Proof.
  intros H. unfold spectral_function_with_eps. cbn [nadd nsub nmul ndiv ofR NumC].
  rewrite H. field. rewrite RtoC_mult. apply Cmult_neq_0; [apply two_neq_C | apply PI_neq_C].
Qed.
