(** * Properties C01-C10: global settings, root finding, residues, spectral functions *)
From Coq Require Import Reals List Bool.
From Coquelicot Require Import Coquelicot.
From Verif Require Import Num MConsts MUtils MDress MFloat SpecConsts SpecWrappers PConsts PWrappers PUtils PExConsts.
Import ListNotations.
Open Scope R_scope.

(** C01. For every arithmetic [O] (reals, binary64, ...) and every history. *)
Theorem C01_ratio_never_stale : forall (F : Type) (O : FloatOps F) (h : list call),
  let g := run_calls O (default_globals O) h in
  nf_div_nc g = f_div O (f_of_u32 O (get_number_of_fermions g)) (f_of_u32 O (get_number_of_colors g)).
Proof. exact (@ratio_invariant). Qed.
Print Assumptions C01_ratio_never_stale.

Example C01_example :
  let g := run_calls OpsR (default_globals OpsR) [SetNF 2; SetMaxIter 7; SetNC 4] in
  nf_div_nc g = INR 2 / INR 4.
Proof. exact (ratio_invariant OpsR [SetNF 2; SetMaxIter 7; SetNC 4]). Qed.

(** C02. *)
Theorem C02_getters_return_last_set : forall (F : Type) (O : FloatOps F) (h : list call),
  let g := run_calls O (default_globals O) h in
  last_selected sel_nc 3%nat h (get_number_of_colors g) /\
  last_selected sel_nf 1%nat h (get_number_of_fermions g) /\
  last_selected sel_mq (f_lit_half O) h (get_default_quark_mass g) /\
  last_selected sel_mi 50%nat h (get_default_max_iter_integral g) /\
  last_selected (sel_tol (f_pos O)) (f_lit_1em10 O) h (get_default_tol_integral g) /\
  last_selected (sel_reg (f_pos O)) (f_lit_1em5 O) h (get_matsubara_reg g).
Proof.
  exact (fun F O h => conj (getter_nc O h) (conj (getter_nf O h) (conj (getter_mq O h)
    (conj (getter_mi O h) (conj (getter_tol O h) (getter_reg O h)))))).
Qed.
Print Assumptions C02_getters_return_last_set.

Example C02_example : last_selected (sel_nc (F := nat)) 3%nat [SetNC 2; SetNF 7; SetNC 5; SetMaxIter 3] 5%nat.
Proof.
  exact (getter_nc (Build_FloatOps nat (fun n => n) Nat.div (fun _ => true) Nat.eqb 0 0 0 0)%nat
    [SetNC 2; SetNF 7; SetNC 5; SetMaxIter 3]).
Qed.

(** C03. The setters panic exactly on arguments that are not [> 0.], a
    panicking call changes nothing, and all reachable values are positive.
    The hypotheses say that the two literals are positive. *)
Theorem C03_positive_settings : forall (F : Type) (O : FloatOps F),
  f_pos O (f_lit_1em10 O) = true -> f_pos O (f_lit_1em5 O) = true ->
  forall g, reachable O g ->
  f_pos O (get_default_tol_integral g) = true /\ f_pos O (get_matsubara_reg g) = true.
Proof. exact (@pos_invariant). Qed.
Print Assumptions C03_positive_settings.

Theorem C03_panic_iff_not_positive : forall (F : Type) (O : FloatOps F) (g : globals F) (x : F),
  ((snd (do_call O g (SetTol x)) = true <-> f_pos O x = false) /\
   (snd (do_call O g (SetTol x)) = true -> fst (do_call O g (SetTol x)) = g)) /\
  ((snd (do_call O g (SetReg x)) = true <-> f_pos O x = false) /\
   (snd (do_call O g (SetReg x)) = true -> fst (do_call O g (SetReg x)) = g)).
Proof. exact (fun F O g x => conj (tol_panic O g x) (reg_panic O g x)). Qed.
Print Assumptions C03_panic_iff_not_positive.

(** The reals and binary64 satisfy the hypotheses; NaN is rejected. *)
Example C03_example_reals : f_pos OpsR (f_lit_1em10 OpsR) = true /\ f_pos OpsR (f_lit_1em5 OpsR) = true.
Proof. exact lit_pos_R. Qed.
Example C03_example_binary64 : f_pos OpsF64 (f_lit_1em10 OpsF64) = true /\ f_pos OpsF64 (f_lit_1em5 OpsF64) = true.
Proof. exact lit_pos_F64. Qed.
Example C03_example_nan : snd (do_call OpsF64 (default_globals OpsF64) (SetTol f64_nan)) = true.
Proof. exact (proj2 (proj1 (tol_panic OpsF64 _ _)) nan_not_pos). Qed.

(** C04. The default method is G7K15 with the last accepted tolerance and
    iteration cap, and the results of the default wrappers depend on the
    integration routine only through its behaviour for that method. *)
Theorem C04_default_method : forall (F : Type) (O : FloatOps F) (h : list call),
  let g := run_calls O (default_globals O) h in
  exists t n, get_default_integration_method g = G7K15 t n /\
    last_selected (sel_tol (f_pos O)) (f_lit_1em10 O) h t /\ last_selected sel_mi 50%nat h n.
Proof. exact (@default_method). Qed.
Print Assumptions C04_default_method.

Theorem C04_wrappers_use_default_method : forall (T : Type) (N : Num T) (J J' : Integrator) (g : globals R),
  agree_on (G7K15 (get_default_tol_integral g) (get_default_max_iter_integral g)) J J' ->
  same_results_default (T := T) J J' g.
Proof. exact (@default_agree). Qed.
Print Assumptions C04_wrappers_use_default_method.

Example C04_example : agree_on (G7K15 (/ 1000) 50) J_probe J_zero.
Proof. exact (probe_agree (/ 1000) 50 ltac:(intros H; Psatz.lra)). Qed.

(** C05. The comment's promise is broken: a program that only sets the
    tolerance gets results that depend on a different tolerance. *)
Theorem C05_customised_tolerance_refuted : exists (h : list call) (t : R),
  let g := run_calls OpsR (default_globals OpsR) h in
  last_selected (sel_tol (f_pos OpsR)) (f_lit_1em10 OpsR) h t /\ In (SetTol t) h /\
  exists J J', agree_on (G7K15 t (get_default_max_iter_integral g)) J J' /\
    ~ same_results_zero_matsubara J J' g.
Proof. exact c05_refuted. Qed.
Print Assumptions C05_customised_tolerance_refuted.

(** What actually happens in every state: tolerance 1E-8, whatever was set. *)
Theorem C05_zero_matsubara_always_1em8 : forall (J J' : Integrator) (g : globals R),
  agree_on (G7K15 (/ 10 ^ 8) (get_default_max_iter_integral g)) J J' ->
  same_results_zero_matsubara J J' g.
Proof. exact zm_agree. Qed.
Print Assumptions C05_zero_matsubara_always_1em8.

(** C06. For every arithmetic, in particular R, C and binary64. *)
Theorem C06_find_root_sound : forall (T Tol : Type) (Ops : RootOps T Tol) f guesses tol max_iter z w,
  find_root Ops f guesses tol max_iter = Ret (Some (z, w)) ->
  w = f z /\ ro_nan Ops w = false /\ ro_small Ops w tol = true.
Proof. exact (@find_root_sound). Qed.
Print Assumptions C06_find_root_sound.

Example C06_example : find_root RootOpsR (fun z => z * z - 2) (1, 2) 3 1 = Ret (Some (2, 2)).
Proof. exact ex_root. Qed.

(** C07. *)
Theorem C07_panic_iff : forall (T Tol : Type) (Ops : RootOps T Tol) f guesses tol max_iter,
  find_root Ops f guesses tol max_iter = Panic <->
  (ro_eq Ops (fst guesses) (snd guesses) = true \/ ro_pos Ops tol = false).
Proof. exact (@find_root_panic). Qed.
Print Assumptions C07_panic_iff.

(** Success is the first of the iterates 1..max_iter within tolerance. *)
Theorem C07_success_iff_first_small_iterate : forall (T Tol : Type) (Ops : RootOps T Tol) f a b tol max_iter z w,
  ro_eq Ops a b = false -> ro_pos Ops tol = true ->
  (find_root Ops f (a, b) tol max_iter = Ret (Some (z, w)) <->
   exists k, (k < max_iter)%nat /\ z = secant Ops f a b (S k) /\ w = f z /\ ro_nan Ops w = false /\
    ro_small Ops w tol = true /\
    forall j, (j < k)%nat -> ro_nan Ops (f (secant Ops f a b (S j))) = false /\
                              ro_small Ops (f (secant Ops f a b (S j))) tol = false).
Proof. exact (@find_root_some). Qed.
Print Assumptions C07_success_iff_first_small_iterate.

Theorem C07_failure_means_all_large : forall (T Tol : Type) (Ops : RootOps T Tol) f a b tol max_iter,
  find_root Ops f (a, b) tol max_iter = Ret None ->
  (forall k, (k < max_iter)%nat -> ro_nan Ops (f (secant Ops f a b (S k))) = false) ->
  forall k, (k < max_iter)%nat -> ro_small Ops (f (secant Ops f a b (S k))) tol = false.
Proof. exact (@find_root_none). Qed.
Print Assumptions C07_failure_means_all_large.

(** The result depends on [f] at no more than [max_iter + 2] points. *)
Theorem C07_evaluation_budget : forall (T Tol : Type) (Ops : RootOps T Tol) f guesses tol max_iter,
  exists l, (length l <= max_iter + 2)%nat /\
  forall f', (forall x, In x l -> f' x = f x) ->
    find_root Ops f' guesses tol max_iter = find_root Ops f guesses tol max_iter.
Proof. exact (@find_root_local). Qed.
Print Assumptions C07_evaluation_budget.

Theorem C07_zero_budget : forall (T Tol : Type) (Ops : RootOps T Tol) f guesses tol,
  find_root Ops f guesses tol 0 <> Panic -> find_root Ops f guesses tol 0 = Ret None.
Proof. exact (@find_root_zero). Qed.
Print Assumptions C07_zero_budget.

Example C07_example : find_root RootOpsR (fun z => z * z - 2) (1, 3) 3 1 = Ret None.
Proof. exact ex_root_none. Qed.

(** C08. *)
Theorem C08_affine_real : forall a b x y tol max_iter,
  a <> 0 -> x <> y -> 0 < tol -> (2 <= max_iter)%nat -> tol <= Rabs (a * y + b) ->
  find_root RootOpsR (fun z => a * z + b) (x, y) tol max_iter = Ret (Some (- b / a, 0)).
Proof. exact affine_R. Qed.
Print Assumptions C08_affine_real.

Theorem C08_affine_complex : forall (a b x y : C) tol max_iter,
  a <> RtoC 0 -> x <> y -> 0 < tol -> (2 <= max_iter)%nat -> tol <= Cmod (a * y + b)%C ->
  find_root RootOpsC (fun z => a * z + b)%C (x, y) tol max_iter = Ret (Some (- b / a, RtoC 0)%C).
Proof. exact affine_C. Qed.
Print Assumptions C08_affine_complex.

Example C08_example : find_root RootOpsR (fun z => 2 * z + -8) (0, 1) (/ 10) 2 = Ret (Some (- -8 / 2, 0)).
Proof.
  exact (affine_R 2 (-8) 0 1 (/ 10) 2 ltac:(Psatz.lra) ltac:(Psatz.lra) ltac:(Psatz.lra) (le_n 2)
    ltac:(rewrite Rabs_left; Psatz.lra)).
Qed.

(** C09. *)
Theorem C09_residue_exact_real : forall c z0 eps : R, c <> 0 -> eps <> 0 ->
  compute_residue_with_eps (fun z => c / (z - z0)) z0 eps = c.
Proof. exact residue_exact_R. Qed.
Print Assumptions C09_residue_exact_real.

Theorem C09_residue_exact_complex : forall (c z0 : C) (eps : R), c <> RtoC 0 -> eps <> 0 ->
  compute_residue_with_eps (fun z => c / (z - z0))%C z0 eps = c.
Proof. exact residue_exact_C. Qed.
Print Assumptions C09_residue_exact_complex.

Theorem C09_residue_limit : forall (f : C -> C) (z0 c : C), c <> RtoC 0 -> simple_pole f z0 c ->
  Clim0 (fun eps => compute_residue_with_eps f z0 eps) c.
Proof. exact residue_limit. Qed.
Print Assumptions C09_residue_limit.

Example C09_example : simple_pole (fun z => (RtoC 3 / z + RtoC 1)%C) (RtoC 0) (RtoC 3).
Proof. exact ex_pole. Qed.

(** C10. *)
Theorem C10_spectral_linear : forall (f g : C -> C) (a b z : C) (eps : R),
  spectral_function_with_eps (fun w => a * f w + b * g w)%C z eps =
  (a * spectral_function_with_eps f z eps + b * spectral_function_with_eps g z eps)%C.
Proof. exact spectral_linear. Qed.
Print Assumptions C10_spectral_linear.

Theorem C10_spectral_real : forall (f : C -> C) (x eps : R),
  (forall w, f (Cconj w) = Cconj (f w)) ->
  spectral_function_with_eps f x eps = RtoC (- snd (f (RtoC x + Ci * eps)%C) / PI).
Proof. exact spectral_reflection. Qed.
Print Assumptions C10_spectral_real.

Theorem C10_spectral_lorentzian : forall c x0 x eps : R, 0 < eps ->
  spectral_function_with_eps (fun w => RtoC c / (w - RtoC x0))%C x eps
  = RtoC (c / PI * (eps / ((x - x0) ^ 2 + eps ^ 2))).
Proof. exact spectral_pole. Qed.
Print Assumptions C10_spectral_lorentzian.

Theorem C10_spectral_no_discontinuity : forall (f : C -> C) (z : C) (eps : R),
  f (z + Ci * eps)%C = f (z - Ci * eps)%C -> spectral_function_with_eps f z eps = RtoC 0.
Proof. exact spectral_no_cut. Qed.
Print Assumptions C10_spectral_no_discontinuity.

Example C10_example : forall w, (fun z : C => (z * z)%C) (Cconj w) = Cconj ((fun z : C => (z * z)%C) w).
Proof. exact ex_reflection. Qed.
