(** * The secant method in binary64 *)
From Coq Require Import ZArith Reals Psatz Lia List Bool.
From Flocq Require Import Core IEEE754.BinarySingleNaN IEEE754.Binary IEEE754.Bits.
From Verif Require Import MFloat MGrid MUtils SpecGrid SpecRoot64 PGrid PGrid2 PGrid3 PFerm64b.
Open Scope R_scope.

Notation nf x := (is_finite 53 1024 x = false).
Lemma nf_iff x : ~ fin x <-> nf x.
Proof. unfold fin. destruct (is_finite 53 1024 x); split; intros H; [now elim H|discriminate H|reflexivity|discriminate]. Qed.
Lemma nf_mul_r x y : nf y -> nf (x [*] y). Proof. destruct x, y; intros H; try discriminate H; reflexivity. Qed.
Lemma nf_sub_l x y : nf x -> nf (x [-] y). Proof. destruct x as [s|[]|s pl e|s m e Hx], y as [s'|[]|s' pl' e'|s' m' e' Hy]; intros H; try discriminate H; reflexivity. Qed.
Lemma nf_div_l x y : nf x -> nf (x [/] y). Proof. destruct x, y; intros H; try discriminate H; reflexivity. Qed.
Lemma nf_div_zero x s : nf (x [/] B754_zero 53 1024 s). Proof. destruct x; reflexivity. Qed.
Lemma nf_lt x t : nf x -> f64_lt (b64_abs x) t = false.
Proof. destruct x as [s|s|s pl e|s m e Hx], t as [s'|[]|s' pl' e'|s' m' e' Hy]; intros H; try discriminate H; reflexivity. Qed.
Lemma val_zero y : fin y -> val y = 0 -> exists s, y = B754_zero 53 1024 s.
Proof.
  destruct y as [s|s|s pl e|s m e H]; intros F V; try discriminate F; [now exists s|exfalso]. unfold val in V. cbn [B2R] in V. apply eq_0_F2R in V. cbn [Fnum] in V. destruct s; discriminate V.
Qed.
Lemma sub_zero x y : fin x -> fin y -> val x = val y -> exists s, x [-] y = B754_zero 53 1024 s.
Proof.
  intros Fx Fy E. destruct (minus_ok x y 0 Fx Fy ltac:(lia)) as (F & V). { rewrite E, Rminus_diag_eq, Rabs_R0 by auto. apply bpow_ge_0. }
  apply val_zero; [exact F|]. rewrite V, E, Rminus_diag_eq by auto. apply rnd_0.
Qed.
Section Secant.
Variable f : F64 -> F64.
Hypothesis Hf : keeps_non_finite f.
Lemma f_nf x : nf x -> nf (f x).
Proof. intros H. apply nf_iff, Hf, nf_iff, H. Qed.
Lemma loop_nf tol n : forall z0 z1 f0 f1, nf f1 -> find_root_loop RootOpsF64 f tol n z0 z1 f0 f1 = None.
Proof.
  induction n as [|n IH]; intros z0 z1 f0 f1 H; [reflexivity|]. cbn [find_root_loop].
  destruct (ro_nan RootOpsF64 f1); [reflexivity|]. assert (S : ro_small RootOpsF64 f1 tol = false) by exact (nf_lt f1 tol H). rewrite S.
  apply IH. apply f_nf. change (nf ((z0 [*] f1 [-] z1 [*] f0) [/] (f1 [-] f0))). apply nf_div_l, nf_sub_l, nf_mul_r, H.
Qed.
Lemma loop_flat tol n z0 z1 f0 f1 : fin f0 -> fin f1 -> val f0 = val f1 -> f64_lt (b64_abs f1) tol = false -> find_root_loop RootOpsF64 f tol n z0 z1 f0 f1 = None.
Proof.
  intros F0 F1 E S. destruct n as [|n]; [reflexivity|]. cbn [find_root_loop]. destruct (ro_nan RootOpsF64 f1); [reflexivity|].
  assert (S' : ro_small RootOpsF64 f1 tol = false) by exact S. rewrite S'. apply loop_nf, f_nf.
  change (nf ((z0 [*] f1 [-] z1 [*] f0) [/] (f1 [-] f0))). destruct (sub_zero f1 f0 F1 F0 (eq_sym E)) as (s & Z).
  apply (eq_trans (f_equal (fun w => is_finite 53 1024 ((z0 [*] f1 [-] z1 [*] f0) [/] w)) Z)). apply nf_div_zero.
Qed.
End Secant.
Lemma flat_fails f a b tol n : keeps_non_finite f -> f64_eq a b = false -> f64_gt tol f64_zero = true ->
  fin (f a) -> fin (f b) -> val (f a) = val (f b) -> f64_lt (b64_abs (f b)) tol = false -> find_root RootOpsF64 f (a, b) tol n = Ret None.
Proof.
  intros Hf Hab Ht F0 F1 E S. unfold find_root. cbn [fst snd]. change (ro_eq RootOpsF64 a b) with (f64_eq a b). change (ro_pos RootOpsF64 tol) with (f64_gt tol f64_zero). rewrite Hab, Ht. cbn [negb].
  cbv zeta. rewrite loop_flat; auto.
Qed.
Lemma nonfinite_guess_fails f a b tol n : keeps_non_finite f -> f64_eq a b = false -> f64_gt tol f64_zero = true -> ~ fin b -> find_root RootOpsF64 f (a, b) tol n = Ret None.
Proof.
  intros Hf Hab Ht H. unfold find_root. cbn [fst snd]. change (ro_eq RootOpsF64 a b) with (f64_eq a b). change (ro_pos RootOpsF64 tol) with (f64_gt tol f64_zero). rewrite Hab, Ht. cbn [negb].
  cbv zeta. rewrite loop_nf; auto. apply f_nf; auto. now apply nf_iff.
Qed.
Lemma loop_some f tol n : forall z0 z1 f0 f1 z w, f1 = f z1 -> find_root_loop RootOpsF64 f tol n z0 z1 f0 f1 = Some (z, w) -> w = f z /\ f64_lt (b64_abs w) tol = true.
Proof.
  induction n as [|n IH]; intros z0 z1 f0 f1 z w E; cbn [find_root_loop]; [discriminate|]. destruct (ro_nan RootOpsF64 f1); [discriminate|].
  destruct (ro_small RootOpsF64 f1 tol) eqn:S.
  - intros H. assert (Z : z1 = z) by exact (f_equal (fun o => match o with Some p => fst p | None => z1 end) H). assert (W : f1 = w) by exact (f_equal (fun o => match o with Some p => snd p | None => f1 end) H).
    rewrite <- W, <- Z. split; [exact E|exact S].
  - intros H. exact (IH _ _ _ _ z w eq_refl H).
Qed.
Lemma root_finite f guesses tol n z w : keeps_non_finite f -> find_root RootOpsF64 f guesses tol n = Ret (Some (z, w)) -> fin z /\ fin w /\ w = f z.
Proof.
  intros Hf. unfold find_root. destruct (ro_eq _ _ _); [discriminate|]. destruct (negb _); [discriminate|]. cbv zeta. intros H.
  assert (H' : find_root_loop RootOpsF64 f tol n (fst guesses) (snd guesses) (f (fst guesses)) (f (snd guesses)) = Some (z, w)) by exact (f_equal (fun o => match o with Ret v => v | Panic => None end) H).
  destruct (loop_some f tol n _ _ _ _ z w eq_refl H') as (E & S).
  assert (Fw : fin w). { destruct (is_finite 53 1024 w) eqn:F; [exact F|]. rewrite (nf_lt w tol F) in S. discriminate S. }
  split; [|split; [exact Fw|exact E]]. destruct (is_finite 53 1024 z) eqn:F; [exact F|]. exfalso. apply (Hf z); [now apply nf_iff|]. rewrite <- E. exact Fw.
Qed.
(** x^2 - c *)
Definition ex_square (c x : F64) : F64 := x [*] x [-] c.
Lemma square_keeps c : keeps_non_finite (ex_square c).
Proof. intros x H. apply nf_iff. unfold ex_square. apply nf_sub_l, nf_mul_r, nf_iff, H. Qed.
Lemma ex_root : (forall c, keeps_non_finite (ex_square c)) /\
  find_root RootOpsF64 (ex_square (f64_lit 2 1)) (f64_lit (-2) 1, f64_lit 2 1) (f64_lit 1 1000) 100 = Ret None /\
  match find_root RootOpsF64 (ex_square (f64_lit 4 1)) (f64_lit 1 1, f64_lit 3 1) (f64_lit 1 1000) 100 with
  | Ret (Some (z, _)) => (f64_gt z (f64_lit 1999 1000) && f64_lt z (f64_lit 2001 1000))%bool | _ => false end = true.
Proof.
  split; [exact square_keeps|]. split; [|vm_compute; reflexivity].
  assert (F1 : fin (ex_square (f64_lit 2 1) (f64_lit (-2) 1))) by (vm_compute; reflexivity). assert (F2 : fin (ex_square (f64_lit 2 1) (f64_lit 2 1))) by (vm_compute; reflexivity).
  assert (E : val (ex_square (f64_lit 2 1) (f64_lit (-2) 1)) = val (ex_square (f64_lit 2 1) (f64_lit 2 1))).
  { apply (eq_ok _ _ F1 F2). vm_compute. reflexivity. }
  assert (G1 : f64_eq (f64_lit (-2) 1) (f64_lit 2 1) = false) by (vm_compute; reflexivity). assert (G2 : f64_gt (f64_lit 1 1000) f64_zero = true) by (vm_compute; reflexivity).
  assert (G3 : f64_lt (b64_abs (ex_square (f64_lit 2 1) (f64_lit 2 1))) (f64_lit 1 1000) = false) by (vm_compute; reflexivity).
  exact (flat_fails _ _ _ _ 100 (square_keeps _) G1 G2 F1 F2 E G3).
Qed.
