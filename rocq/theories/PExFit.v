(** * A run with a fit that is not determined *)
From Coq Require Import Reals List Lra Lia Arith ZArith Psatz.
From Coquelicot Require Import Coquelicot.
From Verif Require Import Num MConsts MVacuum MUtils MDress MTc MPhase MFit SpecConsts SpecTc SpecPhase SpecRun SpecFit PTc PTc2 PPhase PPhase2 PRun PRun2 PRun3 PExPhase PExRun PFit PFit2.
Import List ListNotations.
Open Scope R_scope.

Lemma main_fit J g fit fit' d out p : physical_tc_main J g fit d = Ret out -> fit' (reduce_phase_boundary (po_boundary out)) = Ret p ->
  exists out', physical_tc_main J g fit' d = Ret out' /\ po_fit out' = p /\ po_boundary out' = po_boundary out.
Proof.
  intros E F. pose proof (main_ret _ _ _ _ _ E) as (_ & _ & _ & B & _).
  unfold physical_tc_main in *. destruct (in_mq d) as [[mq1 mq2] mq3]. destruct (in_mqc d) as [[mq1c mq2c] mq3c].
  apply obind_ret in E. destruct E as (long & E1 & E). apply obind_ret in E. destruct E as (trans & E2 & E). cbv zeta in *.
  apply obind_ret in E. destruct E as (ir & E3 & E). apply obind_ret in E. destruct E as ((pb, d2) & E4 & E). cbn [fst snd] in E.
  apply obind_ret in E. destruct E as (c & E5 & E). apply obind_ret in E. destruct E as (cpd & E6 & E). apply obind_ret in E. destruct E as (ps & E7 & E).
  apply obind_ret in E. destruct E as (cl & E8 & E). apply obind_ret in E. destruct E as (ct & E9 & E). injection E as <-. cbn [po_boundary] in *.
  rewrite E1. cbn [obind]. rewrite E2. cbn [obind]. rewrite E3. cbn [obind]. rewrite E4. cbn [obind fst snd]. rewrite E5. cbn [obind]. rewrite E6. cbn [obind].
  assert (X : cfg_phase_boundary (set_phase_boundary (Some pb) c) = Some (reduce_phase_boundary pb)) by reflexivity.
  rewrite X, F. cbn [obind]. rewrite E8. cbn [obind]. rewrite E9. cbn [obind]. eexists. split; [reflexivity|]. auto.
Qed.
Definition flat_routine : FitRoutine := fun data model init iter l0 l1 => if Nat.eqb (length init) 9 then Ret [1; 0; 0; 0; 0; 0; 0; 0; 0] else Panic.
Lemma ex_run_fit J g : exists out, physical_tc_main J g (boundary_fit flat_routine) one_temp = Ret out /\
  cut_at_zero (po_boundary out) [(0, 1); (1, 1); (2, 1); (3, 1)] /\ po_fit out = [1; 0; 0; 0; 0; 0; 0; 0; 0] /\
  optimizes_on flat_routine [(0, 1); (1, 1); (2, 1); (3, 1)] fit_model.
Proof.
  destruct (ex_succeeds J g) as (_ & out & E & F). pose proof (main_ret _ _ _ _ _ E) as (_ & _ & _ & B & _ & G & _).
  apply diagram_ret in B as (_ & M & _). change (cfg_chempots _) with (compute_vec (0, 3, 1)) in M. rewrite grid_03 in M.
  rewrite F in G. injection G as G. pose proof (reduce_cut (po_boundary out)) as (rest & Q & _).
  assert (C : reduce_phase_boundary (po_boundary out) = [(0, 1); (1, 1); (2, 1); (3, 1)]).
  { rewrite Q, map_app in M. destruct (reduce_phase_boundary (po_boundary out)) as [|[a1 b1] [|[a2 b2] [|[a3 b3] [|[a4 b4] [|x l]]]]]; cbn in G; try discriminate.
    cbn in M. injection M as -> -> -> ->. now injection G as -> -> -> ->. }
  assert (O : optimizes_on flat_routine [(0, 1); (1, 1); (2, 1); (3, 1)] fit_model).
  { intros init iter l0 l1 p H. unfold flat_routine in H. destruct (Nat.eqb_spec (length init) 9) as [L|]; [|discriminate]. injection H as <-. rewrite L. apply optimum_best, ex_undetermined. }
  destruct (main_fit J g _ (boundary_fit flat_routine) one_temp out [1; 0; 0; 0; 0; 0; 0; 0; 0] E) as (out' & E' & F' & B').
  - rewrite C. unfold boundary_fit. destruct (parametrize_phase_boundary flat_routine [(0, 1); (1, 1); (2, 1); (3, 1)] 8 true) as [|r] eqn:P.
    + exfalso. assert (K : cut_at_zero [(0, 1); (1, 1); (2, 1); (3, 1)] [(0, 1); (1, 1); (2, 1); (3, 1)]).
      { exists []. split; [reflexivity|]. split; [repeat constructor; cbn; lra|now left]. }
      apply (proj1 (param_panic _ _ _ _ _ K O)) in P. discriminate.
    + cbn [obind]. f_equal. unfold parametrize_phase_boundary in P. apply obind_ret in P as (p & P & H). apply obind_ret in H as (im & _ & H). injection H as <-. cbn [fst]. now injection P as <-.
  - exists out'. split; auto. split; [rewrite B', <- C; apply reduce_cut|]. auto.
Qed.
