(** * The four propagators handed to the phase-diagram program *)
From Coq Require Import Reals List Lra Lia.
From Coquelicot Require Import Coquelicot.
From Verif Require Import Num MConsts MCommon MUtils MVacuum MThermal MDress MTc MPhase SpecLim SpecInt SpecCold SpecHtl SpecHot PLim PLimC PHot2 PHotB8 PColdDr PProg2.
Import List ListNotations.
Open Scope R_scope.

Lemma prop_cold J g om p mu f0 nc m quarks : exact_integrator J -> (0 < g_nc g)%nat -> m <> 0 -> om <> 0 -> 0 < p ->
  let fc := FieldConfig_new nc m quarks in
  (qcd_gluon_dressing_l_inv_zero_temp_w_field_config J g om p mu f0 fc <> RtoC 0 ->
    tendsC (Rbar_locally p_infty) (fun beta => prop_l J g om p beta mu f0 fc) (prop_l0 J g om p mu f0 fc)) /\
  (qcd_gluon_dressing_t_inv_zero_temp_w_field_config J g om p mu f0 fc <> RtoC 0 ->
    tendsC (Rbar_locally p_infty) (fun beta => prop_t J g om p beta mu f0 fc) (prop_t0 J g om p mu f0 fc)).
Proof.
  intros HJ Hn Hm Ho Hp. cbv zeta. pose proof (cold_gen_ok J g mu HJ Hn m 0 f0 nc quarks Hm om p 1 Ho Hp) as H. unfold cold_gen in H.
  do 5 apply Forall_cons_iff in H as [_ H]. apply Forall_cons_iff in H as [[_ HL] H]. apply Forall_cons_iff in H as [[_ HT] _].
  cbn [fst snd] in HL, HT. split; intros N; [exact (proj2 (HL N))|exact (proj2 (HT N))].
Qed.
Lemma prop_hot J g om p mu f0 nc m quarks : exact_integrator J -> (0 < g_nc g)%nat -> m <> 0 -> om <> 0 -> 0 < p ->
  let fc := FieldConfig_new nc m quarks in
  tendsC (Rbar_locally p_infty) (fun T => RtoC (T * T) * prop_l J g om p (/ T) mu f0 fc)%C (RtoC (/ (hot_mass (g_nc g) (quark_total quarks) 0 * htl_L om p))) /\
  tendsC (Rbar_locally p_infty) (fun T => RtoC (T * T) * prop_t J g om p (/ T) mu f0 fc)%C (RtoC (/ (hot_mass (g_nc g) (quark_total quarks) 0 * htl_T om p))).
Proof.
  intros HJ Hn Hm Ho Hp. cbv zeta. assert (M : tends (Rbar_locally p_infty) (fun T => mu / T) 0).
  { unfold tends. evar_last; [apply (is_lim_div (fun _ => mu) (fun T => T) p_infty mu p_infty); [apply is_lim_const|apply is_lim_id|discriminate|exact Logic.I]|]. cbn. now rewrite Rmult_0_r. }
  pose proof (hot_gen_ok J g m f0 nc quarks HJ Hn 1 (fun _ => mu) 0 om p Hm M Ho Hp) as H. unfold hot_gen in H; cbv zeta in H.
  do 4 apply Forall_cons_iff in H as [_ H]. apply Forall_cons_iff in H as [(_ & _ & HL) H]. apply Forall_cons_iff in H as [(_ & _ & HT) _].
  cbn [fst snd] in HL, HT. split; [exact HL|exact HT].
Qed.
