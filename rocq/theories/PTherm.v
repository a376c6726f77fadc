(** * Statements about the integrated thermal parts, assembled *)
From Coq Require Import Reals List Lra Lia.
From Coquelicot Require Import Coquelicot.
From Verif Require Import Num CField MCommon MConsts MVacuum MThermal MPolar MDress MQuark MConc SpecLim SpecDress SpecInt SpecConc PCplx PDistr PVac PDress PDress2 PInt PCfg PConc.
Import List ListNotations.
Open Scope R_scope.

Lemma Forall_swap {A B} (P : A -> B -> Prop) (D : B -> Prop) l : (forall b, D b -> Forall (fun a => P a b) l) -> Forall (fun a => forall b, D b -> P a b) l.
Proof. intros H. apply Forall_forall. intros a Ha b Hb. specialize (H b Hb). rewrite Forall_forall in H. auto. Qed.

Lemma sea_C {T : Type} {NT : Num T} (J : Integrator) (g : globals R) (om : T) (p mq mu : R) (I : Integral R) :
(forall q, outside mq mu q ->
  Forall (fun x : C * (R -> C) * Integral R => let '(v, f, d) := x in f q = RtoC 0) (fermi_sea_integrals_C J g om p mq mu I)) ->
  (Rabs mu < Rabs mq -> Forall (fun x : C * (R -> C) * Integral R => let '(v, f, d) := x in
      v = RtoC 0 /\ forall q, f q = RtoC 0) (fermi_sea_integrals_C J g om p mq mu I)) /\
  (Rabs mq <= Rabs mu -> Forall (fun x : C * (R -> C) * Integral R => let '(v, f, d) := x in
      v = integrateC J f 0 (sqrt (mu * mu - mq * mq)) d /\
      (forall q, sqrt (mu * mu - mq * mq) < q -> f q = RtoC 0) /\
      (forall K u, sqrt (mu * mu - mq * mq) <= K ->
         is_RInt (V := C_R_NormedModule) f 0 (sqrt (mu * mu - mq * mq)) u -> is_RInt (V := C_R_NormedModule) f 0 K u))
    (fermi_sea_integrals_C J g om p mq mu I)).
Proof.
  intros out. split; intros H.
  - assert (A := no_sea_C J g om p mq mu I H).
    assert (B := Forall_swap _ (fun _ : R => True) _ (fun q _ => out q (or_introl H))). cbv beta in B.
    rewrite Forall_forall in *. intros [[v f] d] Hx. specialize (A _ Hx). specialize (B _ Hx). cbv beta iota in *. split; auto.
  - assert (A := fermi_sea_C J g om p mq mu I H).
    assert (B := Forall_swap _ _ _ (fun q Hq => out q (or_intror (conj H Hq)))). cbv beta in B.
    rewrite Forall_forall in *. intros [[v f] d] Hx. specialize (A _ Hx). specialize (B _ Hx). cbv beta iota in *.
    split; [exact A|]. split; [exact B|]. intros K u HK Hu. exact (extend_sea f _ K u HK B Hu).
Qed.
Lemma sea_R J g p mq mu I :
    (Rabs mu < Rabs mq -> Forall (fun x : R * (R -> R) * Integral R => let '(v, f, d) := x in
        v = 0 /\ forall q, f q = 0) (fermi_sea_integrals_R J g p mq mu I)) /\
    (Rabs mq <= Rabs mu -> Forall (fun x : R * (R -> R) * Integral R => let '(v, f, d) := x in
        v = integrateR J f 0 (sqrt (mu * mu - mq * mq)) d /\
        (forall q, sqrt (mu * mu - mq * mq) < q -> f q = 0) /\
        (forall K u, sqrt (mu * mu - mq * mq) <= K ->
           is_RInt f 0 (sqrt (mu * mu - mq * mq)) u -> is_RInt f 0 K u))
      (fermi_sea_integrals_R J g p mq mu I)).
Proof.
  assert (out := integrands_outside_zm J g p mq mu I).
  split; intros H.
  - assert (A := no_sea_R J g p mq mu I H).
    assert (B := Forall_swap _ (fun _ : R => True) _ (fun q _ => out q (or_introl H))). cbv beta in B.
    rewrite Forall_forall in *. intros [[v f] d] Hx. specialize (A _ Hx). specialize (B _ Hx). cbv beta iota in *. split; auto.
  - assert (A := fermi_sea_R J g p mq mu I H).
    assert (B := Forall_swap _ _ _ (fun q Hq => out q (or_intror (conj H Hq)))). cbv beta in B.
    rewrite Forall_forall in *. intros [[v f] d] Hx. specialize (A _ Hx). specialize (B _ Hx). cbv beta iota in *.
    split; [exact A|]. split; [exact B|]. intros K u HK Hu. exact (extend_sea (V := R_NormedModule) f _ K u HK B Hu).
Qed.
Lemma sea_doc nc p mq mu q : Rabs mu < Rabs mq \/ (Rabs mq <= Rabs mu /\ sqrt (mu * mu - mq * mq) < q) ->
  Forall (fun f : R -> R => f q = 0) (zm_fermi_sea_integrands nc p mq mu).
Proof. exact (integrands_outside_zm_doc nc p mq mu q). Qed.

(** ** Reductions to the vacuum *)
Lemma vacuum_limits J g nc m mq beta mu g0 f0 quarks :
  (forall (om : R) p, om * om + p * p <> 0 -> Forall (fun x : R * list (R * C) * C * C => let '(sg, l, i, v) := x in
      Forall (fun y => snd y = RtoC 0) l -> i = v) (gen_reductions J g om p nc m mq beta mu g0 f0 quarks)) /\
  (forall (om : C) p, (om * om + RtoC (p * p))%C <> RtoC 0 -> Forall (fun x : R * list (R * C) * C * C => let '(sg, l, i, v) := x in
      Forall (fun y => snd y = RtoC 0) l -> i = v) (gen_reductions J g om p nc m mq beta mu g0 f0 quarks)) /\
  (forall (om : R), om <> 0 -> Forall (fun x : R * list (R * C) * C * C => let '(sg, l, i, v) := x in
      Forall (fun y => snd y = RtoC 0) l -> i = v) (zp_reductions J g om nc m mq beta mu g0 f0 quarks)) /\
  (forall (om : C), om <> RtoC 0 -> Forall (fun x : R * list (R * C) * C * C => let '(sg, l, i, v) := x in
      Forall (fun y => snd y = RtoC 0) l -> i = v) (zp_reductions J g om nc m mq beta mu g0 f0 quarks)) /\
  (forall p, p <> 0 -> Forall (fun x : R * list (R * R) * R * R => let '(sg, l, i, v) := x in
      Forall (fun y => snd y = 0) l -> i = v) (zm_reductions J g p nc m mq beta mu g0 f0 quarks)).
Proof.
  repeat split; intros.
  - eapply reduce_C. now apply gen_reductions_R.
  - eapply reduce_C. now apply gen_reductions_C.
  - eapply reduce_C. now apply zp_reductions_R.
  - eapply reduce_C. now apply zp_reductions_C.
  - eapply reduce_R. now apply zm_reductions_R.
Qed.

Lemma no_interference_C {T} {N : Num T} Q (om : T) p beta mu f0 cfg :
  Forall (fun x : conc C * (globals R -> C) => forall g s n,
    (forall k, (n <= k < snd (fst x s n))%nat -> same_but_nc (s k) g /\ g_nc (s k) = g_nc g) -> fst (fst x s n) = snd x g)
    (conc_cfg_C Q om p beta mu f0 cfg).
Proof.
  apply Forall_forall. intros x Hx g s n H.
  assert (A := conc_cfg_C_ok Q g om p beta mu f0 cfg). rewrite Forall_forall in A. now apply (A x Hx).
Qed.
Lemma no_interference_R Q p beta mu f0 cfg :
  Forall (fun x : conc R * (globals R -> R) => forall g s n,
    (forall k, (n <= k < snd (fst x s n))%nat -> same_but_nc (s k) g /\ g_nc (s k) = g_nc g) -> fst (fst x s n) = snd x g)
    (conc_cfg_R Q p beta mu f0 cfg).
Proof.
  apply Forall_forall. intros x Hx g s n H.
  assert (A := conc_cfg_R_ok Q g p beta mu f0 cfg). rewrite Forall_forall in A. now apply (A x Hx).
Qed.
