(** * Proofs about evaluation under interference *)
From Coq Require Import Reals List Lra Lia Arith FunctionalExtensionality.
From Coquelicot Require Import Coquelicot.
From Verif Require Import Num CField MCommon MConsts MVacuum MThermal MThermalZM MThermalZP MPolar MDress MConc SpecConc SpecDress SpecInt PCplx PDistr PVac PDress PDress2 PInt PCfg.
Import List ListNotations.
Open Scope R_scope.

Definition mono {A} (c : conc A) : Prop := forall s n, (n <= snd (c s n))%nat.
Definition agrees (g : globals R) (s : nat -> globals R) (n m : nat) : Prop :=
  forall k, (n <= k < m)%nat -> same_but_nc (s k) g /\ g_nc (s k) = g_nc g.
Definition sound {A} (g : globals R) (c : conc A) (a : A) : Prop :=
  forall s n, agrees g s n (snd (c s n)) -> fst (c s n) = a.

Lemma mono_ret {A} (a : A) : mono (ret a).
Proof. intros s n. cbn. lia. Qed.
Lemma mono_load {A} (f : globals R -> A) : mono (load f).
Proof. intros s n. cbn. lia. Qed.
Lemma mono_bind {A B} (c : conc A) (f : A -> conc B) : mono c -> (forall a, mono (f a)) -> mono (bind c f).
Proof. intros Hc Hf s n. unfold bind. specialize (Hc s n). destruct (c s n) as [a n1]. specialize (Hf a s n1). cbn in Hc. lia. Qed.
Lemma mono_quad {V} (f : R -> conc V) t : (forall x, mono (f x)) -> mono (run_quad_conc f t).
Proof. intros Hf. induction t; cbn; [apply mono_ret|]. apply mono_bind; auto. Qed.
Lemma mono_fold {T} {N : Num T} (f : QuarkInternal -> conc T) l acc : (forall q, mono (f q)) -> mono acc ->
  mono (fold_left (fun acc qi => bind acc (fun a => bind (f qi) (fun x => ret (a + x)%num))) l acc).
Proof.
  intros Hf. revert acc. induction l; cbn; intros acc Ha; auto. apply IHl.
  apply mono_bind; auto. intros. apply mono_bind; auto. intros. apply mono_ret.
Qed.

Lemma sound_ret {A} g (a : A) : sound g (ret a) a.
Proof. intros s n _. reflexivity. Qed.
Lemma sound_bind {A B} g (c : conc A) (f : A -> conc B) a b : mono c -> (forall x, mono (f x)) ->
  sound g c a -> sound g (f a) b -> sound g (bind c f) b.
Proof.
  intros Mc Mf Hc Hf s n H. unfold bind in *. specialize (Hc s n). specialize (Mc s n). destruct (c s n) as [x n1]. cbn in Hc, Mc.
  specialize (Mf x s n1).
  assert (x = a) as -> by (apply Hc; intros k Hk; apply H; lia).
  apply Hf. intros k Hk. apply H. lia.
Qed.
Lemma sound_nc g : sound g (load g_nc) (g_nc g).
Proof. intros s n H. cbn in *. apply (H n). lia. Qed.
Lemma sound_tol g : sound g (load g_tol_integral) (g_tol_integral g).
Proof. intros s n H. cbn in *. apply (H n). lia. Qed.
Lemma sound_mi g : sound g (load g_max_iter_integral) (g_max_iter_integral g).
Proof. intros s n H. cbn in *. apply (H n). lia. Qed.
Lemma sound_reg g : sound g (load g_matsubara_reg) (g_matsubara_reg g).
Proof. intros s n H. cbn in *. apply (H n). lia. Qed.
Lemma sound_quad {V} g (F : R -> conc V) f t : (forall x, mono (F x)) -> (forall x, sound g (F x) (f x)) ->
  sound g (run_quad_conc F t) (run_quad f t).
Proof.
  intros M H. induction t; cbn; [apply sound_ret|].
  apply sound_bind with (f x); auto. intros. now apply mono_quad.
Qed.
Lemma sound_fold {T} {N : Num T} g (F : QuarkInternal -> conc T) f l : (forall q, mono (F q)) -> (forall q, sound g (F q) (f q)) ->
  forall acc a, mono acc -> sound g acc a ->
  sound g (fold_left (fun acc qi => bind acc (fun a => bind (F qi) (fun x => ret (a + x)%num))) l acc) (fold_left (fun acc qi => (acc + f qi)%num) l a).
Proof.
  intros M H. induction l as [|q l IH]; cbn; intros acc a Ma Ha; auto. apply IH.
  - apply mono_bind; auto. intros. apply mono_bind; auto. intros. apply mono_ret.
  - apply sound_bind with a; auto.
    + intros. apply mono_bind; auto. intros. apply mono_ret.
    + apply sound_bind with (f q); auto; [intros; apply mono_ret|apply sound_ret].
Qed.
Lemma sound_eq {A} g (c : conc A) a b : sound g c a -> a = b -> sound g c b.
Proof. now intros ? <-. Qed.

Lemma mono_default : mono c_default_method.
Proof. repeat (apply mono_bind; [apply mono_load|intros]). apply mono_ret. Qed.
Lemma sound_default g : sound g c_default_method (get_default_integration_method g).
Proof.
  unfold c_default_method. apply sound_bind with (g_tol_integral g); [apply mono_load| |apply sound_tol|].
  { intros. apply mono_bind; [apply mono_load|intros; apply mono_ret]. }
  apply sound_bind with (g_max_iter_integral g); [apply mono_load|intros; apply mono_ret|apply sound_mi|apply sound_ret].
Qed.
Lemma mono_zm_default : mono c_zm_default_method.
Proof.
  apply mono_bind; [apply mono_default|]. intros I. apply mono_bind; [apply mono_load|]. intros d.
  destruct I; [|apply mono_ret]. destruct (f_eqb _ _ _); [|apply mono_ret].
  apply mono_bind; [apply mono_load|]. intros. apply mono_ret.
Qed.
Lemma sound_zm_default g : sound g c_zm_default_method (zm_default_method OpsR g).
Proof.
  unfold c_zm_default_method. apply sound_bind with (get_default_integration_method g); [apply mono_default| |apply sound_default|].
  { intros I. apply mono_bind; [apply mono_load|]. intros d.
    destruct I; [|apply mono_ret]. destruct (f_eqb _ _ _); [|apply mono_ret].
    apply mono_bind; [apply mono_load|]. intros. apply mono_ret. }
  unfold get_default_integration_method. cbv iota beta.
  apply sound_bind with (g_tol_integral g); [apply mono_load| |apply sound_tol|].
  { intros d. destruct (f_eqb _ _ _); [|apply mono_ret]. apply mono_bind; [apply mono_load|]. intros. apply mono_ret. }
  unfold zm_default_method, get_default_integration_method. destruct (f_eqb _ _ _); cbn [andb]; [|apply sound_ret].
  apply sound_bind with (g_max_iter_integral g); [apply mono_load|intros; apply mono_ret|apply sound_mi|].
  eapply sound_eq; [apply sound_ret|reflexivity].
Qed.

Ltac mono_t := repeat match goal with
  | |- forall _, _ => intro
  | |- mono (ret _) => apply mono_ret
  | |- mono (load _) => apply mono_load
  | |- mono (bind _ _) => apply mono_bind
  | |- mono c_default_method => apply mono_default
  | |- mono c_zm_default_method => apply mono_zm_default
  | |- mono (run_quad_conc _ _) => apply mono_quad
  | |- mono (if ?b then _ else _) => destruct b
  | |- mono (fold_left _ _ _) => apply mono_fold
  | |- mono (c_sum_quarks _ _) => apply mono_fold
  | |- mono (let _ := _ in _) => cbv zeta
  | |- mono ?x => let h := head x in unfold h
  end
with head x := match x with ?f _ => head f | _ => x end.
Lemma sound_if {A} g (P P' : Prop) (d : {P} + {P'}) (c1 c2 : conc A) a b : sound g c1 a -> sound g c2 b ->
  sound g (if d then c1 else c2) (if d then a else b).
Proof. now destruct d. Qed.
Ltac sound_go := lazymatch goal with
  | |- forall _, _ => intro; sound_go
  | |- sound _ (ret _) _ => apply sound_ret
  | |- sound _ (load g_nc) _ => apply sound_nc
  | |- sound _ (load g_matsubara_reg) _ => apply sound_reg
  | |- sound _ c_default_method _ => apply sound_default
  | |- sound _ c_zm_default_method _ => apply sound_zm_default
  | |- sound _ (bind _ _) _ => eapply sound_bind; [mono_t|mono_t|sound_go|cbv beta; sound_go]
  | |- sound _ (fold_left _ _ _) _ => eapply sound_fold; [mono_t|sound_go|mono_t|sound_go]
  | |- sound _ (run_quad_conc _ _) _ => eapply sound_quad; [mono_t|sound_go]
  | |- sound _ (if _ then _ else _) _ => eapply sound_if; sound_go
  | |- sound _ (c_sum_quarks _ _) _ => unfold c_sum_quarks; eapply sound_fold; [mono_t|sound_go|mono_t|sound_go]
  | |- sound _ ?x _ => let h := head x in unfold h; cbv zeta; sound_go
  end.

Lemma vac_conc {T} {N : Num T} (x : T) f0 cfg s n :
  c_qcd_gluon_dressing_inv_landau_w_field_config x f0 cfg s n = (qcd_gluon_dressing_inv_landau_w_field_config x f0 cfg, n).
Proof.
  unfold c_qcd_gluon_dressing_inv_landau_w_field_config, qcd_gluon_dressing_inv_landau_w_field_config. cbv zeta.
  generalize (gl_ym_dressing_inv_landau_sep x (nln x) (nln (x + ofR 1)%num) f0).
  induction (fc_quarks_internal cfg) as [|q l IH]; intros a; cbn [fold_left]; [reflexivity|apply IH].
Qed.

Lemma conc_cfg_C_ok {T} {N : Num T} Q g (om : T) p beta mu f0 cfg :
  Forall (fun x : conc C * (globals R -> C) => mono (fst x) /\ sound g (fst x) (snd x g)) (conc_cfg_C Q om p beta mu f0 cfg).
Proof.
  unfold conc_cfg_C. repeat (apply Forall_cons || apply Forall_nil); cbn [fst snd].
  all: split; [mono_t|].
  all: eapply sound_eq; [sound_go|reflexivity].
Qed.
Lemma conc_cfg_R_ok Q g p beta mu f0 cfg :
  Forall (fun x : conc R * (globals R -> R) => mono (fst x) /\ sound g (fst x) (snd x g)) (conc_cfg_R Q p beta mu f0 cfg).
Proof.
  unfold conc_cfg_R. repeat (apply Forall_cons || apply Forall_nil); cbn [fst snd].
  all: split; [mono_t|].
  all: eapply sound_eq; [sound_go|reflexivity].
Qed.

(** ** The other direction *)
Fixpoint seen_sum (h : R -> R) (c : nat -> nat) (n : nat) (a b : R) (l : list (R * R)) : R :=
  match l with
  | [] => 0
  | (w, th) :: l' => w * (b - a) * (h (a + (b - a) * th) / INR (c n)) + seen_sum h c (S n) a b l'
  end.
Definition inside (l : list (R * R)) : Prop := Forall (fun x : R * R => 0 < snd x < 1) l.

Lemma rule_conc om mq mu a b s : mq <> 0 -> Rabs mq < Rabs mu -> a = 0 -> b = fermi_momentum mq mu -> (forall k, g_nc (s k) <> 0%nat) ->
  forall l n acc, inside l ->
  run_quad_conc (fun q => bind (load g_nc) (fun nc => ret (toC (zp_polarization_quark_l_thermal_part_zero_temp_landau_i nc q (om : R) mq mu)))) (rule_quad a b l acc) s n =
  ((acc + RtoC (seen_sum (sea_h om mq) (fun k => g_nc (s k)) n a b l))%C, (n + length l)%nat).
Proof.
  intros Hm Hmu -> -> Hs. induction l as [|[w th] l IH]; intros n acc Hl; cbn [rule_quad run_quad_conc seen_sum].
  - unfold ret. f_equal; [apply Ceq; cbn; ring|cbn; lia].
  - apply Forall_cons_iff in Hl as [H1 Hl]. cbn [snd] in H1. unfold bind at 1. unfold bind at 1. unfold load, ret. cbv beta iota zeta.
    pose proof (kF_strict _ _ Hmu).
    rewrite IH by auto. f_equal; [|cbn; lia]. cbn [toC NumR]. rewrite sea_h_eq; auto; [|split; nra].
    apply Ceq; cbn; ring.
Qed.

Definition zt_prog (l : list (R * R)) (om : R) (nc : nat) (m : R) (nf : nat) (mq mu f0 : R) : conc C :=
  c_zp_qcd_gluon_dressing_l_inv_zero_temp_w_field_config (rule_routine l) om mu f0 (FieldConfig_new nc m [(nf, mq)]).
Lemma zt_prog_eq l om nc m nf mq mu f0 s n : mq <> 0 -> Rabs mq < Rabs mu -> (forall k, g_nc (s k) <> 0%nat) -> inside l ->
  fst (zt_prog l om nc m nf mq mu f0 s n) =
  (RtoC (qcd_gluon_dressing_inv_landau_w_field_config (om * om / (m * m))%R f0 (FieldConfig_new nc m [(nf, mq)])) -
   RtoC (/ (om * om) * PREFACTOR) * RtoC (INR nf * seen_sum (sea_h om mq) (fun k => g_nc (s k)) (n + 2) 0 (fermi_momentum mq mu) l))%C.
Proof.
  intros Hm Hmu Hs Hl. unfold zt_prog, c_zp_qcd_gluon_dressing_l_inv_zero_temp_w_field_config, c_sum_quarks.
  cbn [fc_quarks_internal FieldConfig_new map fold_left qi_mq qi_nf fc_gluon fst snd].
  unfold c_zp_polarization_quark_l_thermal_part_zero_temp_landau. match goal with |- context [Rlt_dec ?a ?b] => change b with (Rabs mq); destruct (Rlt_dec a (Rabs mq)); [lra|] end.
  unfold c_default_method. unfold bind at 1. unfold bind at 1. unfold bind at 1. unfold bind at 1. unfold bind at 1. unfold bind at 1.
  unfold load at 1 2. unfold ret at 1 2. cbv beta iota zeta. unfold bind at 1. cbv beta iota zeta. cbn [rule_routine routC].
  change (qi_mq (QuarkInternal_new nc m nf mq)) with mq. change (qi_nf (QuarkInternal_new nc m nf mq)) with nf.
  rewrite (rule_conc om mq mu 0 (fermi_momentum mq mu) s Hm Hmu eq_refl eq_refl Hs l (S (S n)) (RtoC 0) Hl).
  unfold bind, ret. rewrite vac_conc. cbn [fst]. numcbn.
  replace (n + 2)%nat with (S (S n)) by lia.
  set (V := qcd_gluon_dressing_inv_landau_w_field_config _ _ _). set (S := seen_sum _ _ _ _ _ _). clearbody V S.
  generalize PREFACTOR. intros pf. apply Ceq; cbn; ring.
Qed.

Definition zt_seq (Q : Routine) (g : globals R) (om : R) (nc : nat) (m : R) (nf : nat) (mq mu f0 : R) : C :=
  zp_qcd_gluon_dressing_l_inv_zero_temp_w_field_config (J_of Q) g om mu f0 (FieldConfig_new nc m [(nf, mq)]).
Lemma zt_seq_sound Q g om nc m nf mq mu f0 :
  sound g (c_zp_qcd_gluon_dressing_l_inv_zero_temp_w_field_config Q (om : R) mu f0 (FieldConfig_new nc m [(nf, mq)])) (zt_seq Q g om nc m nf mq mu f0).
Proof. eapply sound_eq; [sound_go|reflexivity]. Qed.
Lemma zt_seq_eq l g om nc m nf mq mu f0 : mq <> 0 -> Rabs mq < Rabs mu -> g_nc g <> 0%nat -> inside l ->
  zt_seq (rule_routine l) g om nc m nf mq mu f0 =
  (RtoC (qcd_gluon_dressing_inv_landau_w_field_config (om * om / (m * m))%R f0 (FieldConfig_new nc m [(nf, mq)])) -
   RtoC (/ (om * om) * PREFACTOR) * RtoC (INR nf * seen_sum (sea_h om mq) (fun k => g_nc g) 2 0 (fermi_momentum mq mu) l))%C.
Proof.
  intros Hm Hmu Hg Hl. rewrite <- (zt_seq_sound (rule_routine l) g om nc m nf mq mu f0 (fun _ => g) 0%nat).
  - apply (zt_prog_eq l om nc m nf mq mu f0 (fun _ => g) 0%nat); auto.
  - intros k _. repeat split.
Qed.
Lemma seen_const h c a b l n k : seen_sum h (fun _ => c) n a b l = seen_sum h (fun _ => c) k a b l.
Proof. revert n k. induction l as [|[w th] l IH]; intros; cbn; auto. now rewrite (IH (S n) (S k)). Qed.

Lemma zt_eq_iff l g om nc m nf mq mu f0 s n : om <> 0 -> nf <> 0%nat -> mq <> 0 -> Rabs mq < Rabs mu -> g_nc g <> 0%nat -> (forall k, g_nc (s k) <> 0%nat) -> inside l ->
  fst (zt_prog l om nc m nf mq mu f0 s n) = zt_seq (rule_routine l) g om nc m nf mq mu f0 <->
  seen_sum (sea_h om mq) (fun k => g_nc (s k)) (n + 2) 0 (fermi_momentum mq mu) l = seen_sum (sea_h om mq) (fun k => g_nc g) (n + 2) 0 (fermi_momentum mq mu) l.
Proof.
  intros Ho Hf Hm Hmu Hg Hs Hl. rewrite zt_prog_eq, zt_seq_eq by auto. rewrite (seen_const _ _ _ _ _ 2 (n + 2)).
  set (V := qcd_gluon_dressing_inv_landau_w_field_config _ _ _). set (x := seen_sum _ (fun k => g_nc (s k)) _ _ _ _). set (y := seen_sum _ _ _ _ _ _).
  clearbody V x y. split; [|now intros ->]. intros E. apply (f_equal fst) in E. cbn in E.
  assert (INR nf <> 0) by (now apply not_0_INR).
  assert (P : PREFACTOR <> 0) by (unfold PREFACTOR; pose proof PI_RGT_0; assert (0 < PI * PI) by nra; lra).
  generalize dependent PREFACTOR. intros pf E P.
  assert (Z : (/ (om * om) * pf * INR nf) * x = (/ (om * om) * pf * INR nf) * y) by lra.
  apply Rmult_eq_reg_l in Z; auto.
  apply Rmult_integral_contrapositive_currified; auto. apply Rmult_integral_contrapositive_currified; auto. apply Rinv_neq_0_compat. nra.
Qed.

Lemma seen_sided h c c0 e a b l : a < b -> (forall x, a < x < b -> h x < 0) -> (forall k, 0 <= e * (/ INR c0 - / INR (c k))) ->
  Forall (fun x : R * R => 0 < fst x /\ 0 < snd x < 1) l -> forall n,
  let d := e * (seen_sum h c n a b l - seen_sum h (fun _ => c0) n a b l) in
  0 <= d /\ (d = 0 -> forall k, (k < length l)%nat -> e * (/ INR c0 - / INR (c (n + k)%nat)) = 0).
Proof.
  intros Hab Hh He Hl. induction l as [|[w th] l IH]; intros n; cbn [seen_sum length]; cbv zeta.
  - split; [lra|]. intros _ k Hk. lia.
  - apply Forall_cons_iff in Hl as [[H1 H2] Hl]. cbn [fst snd] in *. destruct (IH Hl (S n)) as [I1 I2]. cbv zeta in *.
    assert (Hx : h (a + (b - a) * th) < 0) by (apply Hh; nra).
    set (A := seen_sum h c (S n) a b l) in *. set (B := seen_sum h (fun _ => c0) (S n) a b l) in *.
    assert (W : 0 < w * (b - a) * - h (a + (b - a) * th)) by (repeat apply Rmult_lt_0_compat; lra).
    assert (E : e * (w * (b - a) * (h (a + (b - a) * th) / INR (c n)) + A - (w * (b - a) * (h (a + (b - a) * th) / INR c0) + B)) =
      w * (b - a) * - h (a + (b - a) * th) * (e * (/ INR c0 - / INR (c n))) + e * (A - B)) by (unfold Rdiv; ring).
    rewrite E. clear E. specialize (He n). set (q := e * (/ INR c0 - / INR (c n))) in *.
    assert (0 <= w * (b - a) * - h (a + (b - a) * th) * q) by (apply Rmult_le_pos; lra).
    split; [lra|]. intros E k Hk. destruct k.
    + rewrite Nat.add_0_r. fold q. apply Rmult_eq_reg_l with (w * (b - a) * - h (a + (b - a) * th)); lra.
    + replace (n + S k)%nat with (S n + k)%nat by lia. apply I2; [lra|lia].
Qed.

Lemma inv_INR_eq x y : x <> 0%nat -> y <> 0%nat -> / INR x - / INR y = 0 -> y = x.
Proof.
  intros Hx Hy E. apply INR_eq. assert (INR x <> 0) by (now apply not_0_INR). assert (INR y <> 0) by (now apply not_0_INR).
  rewrite <- (Rinv_inv (INR x)), <- (Rinv_inv (INR y)). f_equal. lra.
Qed.

Lemma rule_iff l g om nc m nf mq mu f0 s n : om <> 0 -> nf <> 0%nat -> mq <> 0 -> Rabs mq < Rabs mu ->
  g_nc g <> 0%nat -> (forall k, g_nc (s k) <> 0%nat) ->
  (forall k, (g_nc g <= g_nc (s k))%nat) \/ (forall k, (g_nc (s k) <= g_nc g)%nat) ->
  Forall (fun x : R * R => 0 < fst x /\ 0 < snd x < 1) l ->
  fst (zt_prog l om nc m nf mq mu f0 s n) = zt_seq (rule_routine l) g om nc m nf mq mu f0 <->
  (forall k, (k < length l)%nat -> g_nc (s (n + 2 + k)%nat) = g_nc g).
Proof.
  intros Ho Hf Hm Hmu Hg Hs Sd Hl.
  assert (Hi : inside l) by (eapply Forall_impl; [|exact Hl]; cbv beta; tauto).
  rewrite zt_eq_iff by auto. split.
  - intros E k Hk. assert (X : exists e, e <> 0 /\ forall k, 0 <= e * (/ INR (g_nc g) - / INR (g_nc (s k)))).
    { assert (P : forall c, c <> 0%nat -> 0 < INR c) by (intros; apply lt_0_INR; lia).
      destruct Sd as [S1|S1]; [exists 1|exists (-1)]; (split; [lra|]); intros j; specialize (S1 j); apply le_INR in S1.
      - enough (/ INR (g_nc (s j)) <= / INR (g_nc g)) by lra. apply Rinv_le_contravar; auto.
      - enough (/ INR (g_nc g) <= / INR (g_nc (s j))) by lra. apply Rinv_le_contravar; auto. }
    destruct X as [e [He X]].
    destruct (seen_sided (sea_h om mq) (fun k => g_nc (s k)) (g_nc g) e 0 (fermi_momentum mq mu) l (kF_strict _ _ Hmu)
      (fun x Hx => sea_h_neg om mq x Hm (Rgt_not_eq _ _ (proj1 Hx))) X Hl (n + 2)) as [_ Y].
    cbv zeta in Y. rewrite E, Rminus_diag_eq, Rmult_0_r in Y by auto. specialize (Y eq_refl k Hk).
    apply inv_INR_eq; auto. apply Rmult_integral in Y. tauto.
  - intros H. revert H. generalize (n + 2)%nat. clear. induction l as [|[w th] l IH]; intros j H; cbn [seen_sum]; auto.
    rewrite (IH (S j)).
    + specialize (H 0%nat). rewrite Nat.add_0_r in H. rewrite H by (cbn; lia). reflexivity.
    + intros k Hk. replace (S j + k)%nat with (j + S k)%nat by lia. apply H. cbn; lia.
Qed.

(** Evaluations with weight zero, then one that counts. *)
Definition probe (k : nat) : list (R * R) := repeat (0, / 2) k ++ [(1, / 2)].
Lemma probe_inside k : inside (probe k).
Proof.
  unfold probe, inside. apply Forall_app. split.
  - apply Forall_forall. intros x Hx. apply repeat_spec in Hx. subst x. cbn. lra.
  - repeat constructor; cbn; lra.
Qed.
Lemma probe_sum h c n k b : seen_sum h c n 0 b (probe k) = b * (h (b / 2) / INR (c (n + k)%nat)).
Proof.
  revert n. induction k; intros n; cbn [probe repeat app seen_sum].
  - rewrite Nat.add_0_r. replace (0 + (b - 0) * / 2) with (b / 2) by lra. ring.
  - fold (probe k). unfold probe in IHk. rewrite IHk. replace (n + S k)%nat with (S n + k)%nat by lia. ring.
Qed.
Lemma bind_ext {A B} (c : conc A) (f : A -> conc B) s s' n : c s n = c s' n ->
  (forall a n1, c s' n = (a, n1) -> f a s n1 = f a s' n1) -> bind c f s n = bind c f s' n.
Proof. intros E H. unfold bind. rewrite E. destruct (c s' n) as [a n1]. now apply H. Qed.
Lemma quad_ext {V} (F : nat -> R -> V) t : forall s s' n, (forall k, (n <= k)%nat -> s k = s' k) ->
  run_quad_conc (fun x => bind (load g_nc) (fun nc => ret (F nc x))) t s n = run_quad_conc (fun x => bind (load g_nc) (fun nc => ret (F nc x))) t s' n.
Proof.
  induction t as [v|x k IH]; intros s s' n H; [reflexivity|]. cbn [run_quad_conc]. unfold bind at 1 3. unfold bind at 1 3. unfold load at 1 3. unfold ret at 1 3.
  cbv beta iota zeta. rewrite (H n) by lia. apply IH. intros; apply H; lia.
Qed.
Lemma routines_iff g om nc m nf mq mu f0 s n : om <> 0 -> nf <> 0%nat -> mq <> 0 -> Rabs mq < Rabs mu ->
  g_nc g <> 0%nat -> (forall k, g_nc (s k) <> 0%nat /\ same_but_nc (s k) g) ->
  (forall Q, fst (c_zp_qcd_gluon_dressing_l_inv_zero_temp_w_field_config Q om mu f0 (FieldConfig_new nc m [(nf, mq)]) s n) = zt_seq Q g om nc m nf mq mu f0) <->
  (forall k, (n + 2 <= k)%nat -> g_nc (s k) = g_nc g).
Proof.
  intros Ho Hf Hm Hmu Hg Hs. split.
  - intros H k Hk. specialize (H (rule_routine (probe (k - (n + 2))))). change (fst (zt_prog (probe (k - (n + 2))) om nc m nf mq mu f0 s n) = zt_seq (rule_routine (probe (k - (n + 2)))) g om nc m nf mq mu f0) in H.
    apply zt_eq_iff in H; auto; [|intros; apply Hs|apply probe_inside]. rewrite !probe_sum in H.
    replace (n + 2 + (k - (n + 2)))%nat with k in H by lia.
    pose proof (kF_strict _ _ Hmu) as K. set (b := fermi_momentum mq mu) in *.
    assert (N := sea_h_neg om mq (b / 2) Hm ltac:(lra)).
    apply Rmult_eq_reg_l in H; [|lra]. unfold Rdiv in H. apply Rmult_eq_reg_l in H; [|lra].
    apply inv_INR_eq; auto; [apply Hs|lra].
  - intros H Q. set (s' := fun k => if (k <? n + 2)%nat then g else s k).
    rewrite <- (zt_seq_sound Q g om nc m nf mq mu f0 s' n).
    + apply f_equal. unfold c_zp_qcd_gluon_dressing_l_inv_zero_temp_w_field_config, c_sum_quarks.
      cbn [fc_quarks_internal FieldConfig_new map fold_left qi_mq qi_nf fc_gluon fst snd]. cbv zeta.
      apply bind_ext; [|reflexivity]. apply bind_ext; [reflexivity|]. intros a n1 E1. injection E1 as _ <-.
      apply bind_ext; [|reflexivity]. apply bind_ext; [|reflexivity].
      unfold c_zp_polarization_quark_l_thermal_part_zero_temp_landau.
      apply bind_ext.
      * destruct (Hs n) as [_ [A _]], (Hs (S n)) as [_ [_ [B _]]].
        unfold c_default_method, bind, load, ret, s'.
        rewrite (proj2 (Nat.ltb_lt n (n + 2))), (proj2 (Nat.ltb_lt (S n) (n + 2))) by lia. now rewrite A, B.
      * intros I n1 E1. injection E1 as _ <-. destruct (Rlt_dec _ _); [reflexivity|].
        apply (quad_ext (fun nc q => toC (zp_polarization_quark_l_thermal_part_zero_temp_landau_i nc q om (qi_mq (QuarkInternal_new nc m nf mq)) mu))).
        intros k Hk. unfold s'. destruct (Nat.ltb_spec k (n + 2)); [lia|reflexivity].
    + intros k _. unfold s'. destruct (Nat.ltb_spec k (n + 2)); [repeat split|]. split; [apply Hs|apply H; lia].
Qed.

(** The zero-Matsubara integration method as a function of the four loads. *)
Lemma zm_method_race s n : let t1 := g_tol_integral (s n) in let m1 := g_max_iter_integral (s (n + 1)%nat) in
  let t2 := g_tol_integral (s (n + 2)%nat) in let m2 := g_max_iter_integral (s (n + 3)%nat) in
  (t1 = t2 -> m1 = m2 -> fst (c_zm_default_method s n) = G7K15 (/ 10 ^ 8)%R m1) /\
  (t1 <> t2 \/ m1 <> m2 -> fst (c_zm_default_method s n) = G7K15 t1 m1).
Proof.
  cbv zeta. unfold c_zm_default_method, c_default_method, bind, load, ret. replace (n + 1)%nat with (S n) by lia. replace (n + 2)%nat with (S (S n)) by lia. replace (n + 3)%nat with (S (S (S n))) by lia.
  set (t1 := g_tol_integral (s n)). set (m1 := g_max_iter_integral (s (S n))). set (t2 := g_tol_integral (s (S (S n)))). set (m2 := g_max_iter_integral (s (S (S (S n))))).
  cbn [f_eqb f_lit_1em8 OpsR]. split.
  - intros E1 E2. destruct (Req_EM_T t1 t2); [|contradiction]. rewrite E2, Nat.eqb_refl. reflexivity.
  - intros H. destruct (Req_EM_T t1 t2); [|reflexivity]. cbn [fst]. fold m2. destruct (Nat.eqb_spec m1 m2); [|reflexivity]. destruct H; contradiction.
Qed.
