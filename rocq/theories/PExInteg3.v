(** * Concrete cases for the mass derivatives of the integrands *)
From Coq Require Import Reals Lra Lia List.
From Coquelicot Require Import Coquelicot.
From Verif Require Import Num CField MCommon MThermal SpecDeriv SpecInteg PCplx PVac PDistr PMass2 PReal PForms PForms2 SpecLim PLim PLogs PMass PDeriv PDeriv2 PDeriv3.
Import List ListNotations.
Open Scope R_scope.

(** At mass sqrt 3, momentum 1 and inverse temperature ln 2 / 2 the energy is 2
    and the occupation number is 1. *)
Lemma gf_4 : gf (ln 2 / 2) 4 = / 2.
Proof.
  unfold gf, ns. replace 4 with (2 * 2) by ring. rewrite sqrt_square by lra. replace (2 * (ln 2 / 2)) with (ln 2) by field. rewrite exp_ln by lra. field.
Qed.
Lemma e_4 : energy (1 : R) (sqrt 3) = 2.
Proof. rewrite energy_R, sqrt_sqrt by lra. replace (3 + 1 * 1) with (2 * 2) by ring. apply sqrt_square. lra. Qed.
Lemma bose_4 : bose_distribution_zero_chempot (2 : R) (ln 2 / 2) = 1.
Proof. change (/ (exp (2 * (ln 2 / 2)) - 1) = 1). replace (2 * (ln 2 / 2)) with (ln 2) by field. rewrite exp_ln by lra. field. Qed.
Lemma ex_tadpole : j_m_i 1 (sqrt 3) (ln 2 / 2) = / (4 * (PI * PI)) /\ d_j_m_i 1 (sqrt 3) (ln 2 / 2) = - / (8 * (PI * PI)) /\
  total_j (sqrt 3) (ln 2 / 2) 1 = / (8 * (PI * PI)).
Proof.
  pose proof PI_neq0. rewrite f_j, f_dj. rewrite Tj_eq, sqrt_sqrt by lra. replace (3 + 1 * 1) with 4 by ring. rewrite gf_4. repeat split; field; auto.
Qed.
Lemma ex_bubble : i_m_m_i_same_mass 1 (1 : R) 1 (sqrt 3) (ln 2 / 2) = RtoC (ln 2 / (16 * (PI * PI))) /\
  d_i_m_m_i_same_mass 1 (1 : R) 1 (sqrt 3) (ln 2 / 2) = RtoC (- / (128 * (PI * PI))) /\
  total_0 1 1 (sqrt 3) (sqrt 3) (ln 2 / 2) 1 = ln 2 / (64 * (PI * PI)).
Proof.
  pose proof PI_neq0. assert (H1 : (1 : R) <> 0) by lra. pose proof (same_form 1 1 1 (ln 2 / 2) Rlt_0_1 H1 Rlt_0_1 (sqrt 3)) as E.
  assert (N : nE 1 (sqrt 3) (ln 2 / 2) = / 2) by (rewrite nE_gf, sqrt_sqrt by lra; replace (3 + 1 * 1) with 4 by ring; apply gf_4).
  assert (L : LA 1 1 1 2 0 = ln 2 / 2).
  { unfold LA, NP, NM, Sr. match goal with |- (ln ?a - ln ?b) / 2 = _ => replace a with (2 * 16) by ring; replace b with 16 by ring end. rewrite ln_mult by lra. field. }
  rewrite N, e_4 in E. pose proof (f_equal (fun l => nth 0 l (RtoC 0)) E) as E0. pose proof (f_equal (fun l => nth 3 l (RtoC 0)) E) as E3.
  cbn [nth map bubbles_same FL] in E0, E3. rewrite E0, E3. rewrite total_0_eq by lra. rewrite N, e_4. replace (dM (sqrt 3) (sqrt 3)) with 0 by (unfold dM; ring).
  change PI2 with (PI * PI). unfold F0, D0, G0, GP, GM. rewrite Ropp_0, L. unfold NP, NM, Sr. repeat split; [f_equal|f_equal|]; field; auto.
Qed.
