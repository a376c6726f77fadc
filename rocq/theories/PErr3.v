(** * Propagation of quadrature errors: curves, critical temperatures and the phase diagram *)
From Coq Require Import Reals Lra Lia List Psatz.
From Coquelicot Require Import Coquelicot.
From Verif Require Import Num CField MConsts MVacuum MThermal MPolar MDress MUtils MTc MPhase SpecInt SpecDress SpecTc SpecErr PCplx PVac PDress PTc PPhase PErr PErr2.
Import List ListNotations.
Open Scope R_scope.

(** ** Real estimates *)
Lemma small_eps a s W d : 0 < a -> 0 < s -> 0 <= W -> 0 < d -> exists eps, 0 < eps /\ W * eps < a /\ W * eps / (a * (a - W * eps)) / s <= d.
Proof.
  intros Ha Hs HW Hd. set (x := Rmin (a / 2) (d * s * a * a / 2)).
  assert (X : 0 < x) by (apply Rmin_glb_lt; [lra|]; repeat (apply Rmult_lt_0_compat || lra)).
  assert (X1 : x <= a / 2) by apply Rmin_l. assert (X2 : x <= d * s * a * a / 2) by apply Rmin_r.
  exists (x / (W + 1)). assert (0 < x / (W + 1)) by (apply Rdiv_lt_0_compat; lra).
  assert (E : W * (x / (W + 1)) <= x). { replace x with ((W + 1) * (x / (W + 1))) at 2 by (field; lra). nra. }
  set (y := W * (x / (W + 1))) in *. assert (0 <= y) by (unfold y; nra).
  split; [auto|]. split; [lra|]. apply Rmult_le_reg_r with (s * (a * (a - y))); [apply Rmult_lt_0_compat; [auto|apply Rmult_lt_0_compat; lra]|].
  replace (y / (a * (a - y)) / s * (s * (a * (a - y)))) with y by (field; split; [|split]; lra).
  apply Rle_trans with (d * (s * (a * (a / 2)))); [lra|]. apply Rmult_le_compat_l; [lra|]. apply Rmult_le_compat_l; [lra|]. apply Rmult_le_compat_l; lra.
Qed.
Lemma quot_dev a b d : b <> 0 -> 0 < d -> exists e, 0 < e /\ forall x y, Rabs (x - a) <= e -> Rabs (y - b) <= e -> Rabs (x / y - a / b) <= d.
Proof.
  intros Hb Hd. pose proof (Rabs_pos_lt b Hb) as B. pose proof (Rabs_pos a) as A.
  set (e := Rmin (Rabs b / 2) (d * (Rabs b * Rabs b) / (2 * (Rabs a + Rabs b)))).
  assert (0 < d * (Rabs b * Rabs b) / (2 * (Rabs a + Rabs b))) by (apply Rdiv_lt_0_compat; [apply Rmult_lt_0_compat; [auto|nra]|lra]).
  exists e. split; [apply Rmin_glb_lt; lra|]. intros x y Hx Hy.
  assert (E1 : e <= Rabs b / 2) by apply Rmin_l. assert (E2 : e <= d * (Rabs b * Rabs b) / (2 * (Rabs a + Rabs b))) by apply Rmin_r.
  assert (Y : Rabs b / 2 <= Rabs y). { pose proof (Rabs_triang y (b - y)) as T. replace (y + (b - y)) with b in T by ring. rewrite (Rabs_minus_sym b y) in T. lra. }
  assert (Ny : y <> 0) by (intros ->; rewrite Rabs_R0 in Y; lra).
  replace (x / y - a / b) with (((x - a) * b - a * (y - b)) / (y * b)) by (field; auto).
  unfold Rdiv. rewrite Rabs_mult, Rabs_inv, Rabs_mult.
  assert (N : Rabs ((x - a) * b - a * (y - b)) <= e * (Rabs a + Rabs b)).
  { eapply Rle_trans; [apply Rabs_triang|]. rewrite Rabs_Ropp, !Rabs_mult. assert (Rabs (x - a) * Rabs b <= e * Rabs b) by (apply Rmult_le_compat_r; lra).
    assert (Rabs a * Rabs (y - b) <= Rabs a * e) by (apply Rmult_le_compat_l; lra). lra. }
  assert (N2 : e * (Rabs a + Rabs b) <= d * (Rabs b * Rabs b) / 2).
  { replace (d * (Rabs b * Rabs b) / 2) with (d * (Rabs b * Rabs b) / (2 * (Rabs a + Rabs b)) * (Rabs a + Rabs b)) by (field; lra). apply Rmult_le_compat_r; lra. }
  assert (P : 0 < Rabs y * Rabs b) by (apply Rmult_lt_0_compat; lra).
  apply Rmult_le_reg_r with (Rabs y * Rabs b); auto. rewrite Rmult_assoc, Rinv_l, Rmult_1_r by lra.
  assert (d * (Rabs b / 2 * Rabs b) <= d * (Rabs y * Rabs b)) by (apply Rmult_le_compat_l; [lra|apply Rmult_le_compat_r; lra]). lra.
Qed.
Lemma Re_dev (x y : C) : Rabs (Re x - Re y) <= Cmod (x - y).
Proof. eapply Rle_trans; [|apply Rmax_Cmod]. apply Rmax_l. Qed.

(** ** Routines that are accurate enough *)
Section Ev.
Variable A : R -> Integrator -> Prop.
Hypothesis Amono : forall e e' J, e <= e' -> A e J -> A e' J.
Definition ev (P : Integrator -> Prop) : Prop := exists eps, 0 < eps /\ forall J, A eps J -> P J.
Lemma ev_imp (P Q : Integrator -> Prop) : (forall J, P J -> Q J) -> ev P -> ev Q.
Proof. intros I (e & He & H). exists e. auto. Qed.
Lemma ev_true (P : Integrator -> Prop) : (forall J, P J) -> ev P.
Proof. intros H. exists 1. split; [lra|auto]. Qed.
Lemma ev_and (P Q : Integrator -> Prop) : ev P -> ev Q -> ev (fun J => P J /\ Q J).
Proof.
  intros (e & He & H) (e' & He' & H'). exists (Rmin e e'). split; [now apply Rmin_glb_lt|]. intros J HJ.
  split; [apply H|apply H']; eapply Amono; try exact HJ; [apply Rmin_l|apply Rmin_r].
Qed.
Lemma ev_all {X} (P : X -> Integrator -> Prop) (l : list X) : (forall x, In x l -> ev (P x)) -> ev (fun J => forall x, In x l -> P x J).
Proof.
  induction l as [|x l IH]; intros H; [apply ev_true; intros J x []|].
  eapply ev_imp; [|apply ev_and; [apply (H x); now left|apply IH; intros y Hy; apply H; now right]].
  cbv beta. intros J [H1 H2] y [<-|Hy]; auto.
Qed.

Definition within1 (d : R) (x y : outcome R) : Prop :=
  match x, y with Ret a, Ret b => Rabs (a - b) <= d | Panic, Panic => True | _, _ => False end.
Lemma omap_within {X} (f h : X -> outcome R) d l : (forall x, In x l -> within1 d (f x) (h x)) -> within d (omap f l) (omap h l).
Proof.
  induction l as [|x l IH]; intros H; [constructor|]. cbn [omap].
  assert (H1 := H x (or_introl eq_refl)). assert (H2 := IH (fun y Hy => H y (or_intror Hy))).
  destruct (f x), (h x); cbn [obind within1] in *; try contradiction; try exact I.
  destruct (omap f l), (omap h l); cbn [obind within] in *; try contradiction; try exact I. now constructor.
Qed.
Lemma map_within {X} (f h : X -> R) d l : (forall x, In x l -> Rabs (f x - h x) <= d) -> within d (Ret (map f l)) (Ret (map h l)).
Proof. intros H. cbn [within]. induction l as [|x l IH]; cbn [map]; constructor; [apply H; now left|]. apply IH. intros y Hy. apply H. now right. Qed.

Variables (P0 : Integrator -> R -> R -> R -> R -> FieldConfig -> C) (P : Integrator -> R -> R -> R -> R -> R -> FieldConfig -> C) (K : Integrator).
Variables (c : Config) (ps : list R).
Hypothesis Hr : In (cfg_renpoint c) ps.
Let m := fc_gluon (cfg_fieldconfig c).
Let om := cfg_om c.
Hypothesis S0 : forall mu p fc f0, In mu (cfg_chempots c) -> In p ps -> maybe_corrected_data c mu 0 = Ret (fc, f0) ->
  Re (P0 K om (cfg_renpoint c) mu f0 fc) * renfac c <> 0 /\ forall d, 0 < d -> ev (fun J => Rabs (Re (P0 J om p mu f0 fc) - Re (P0 K om p mu f0 fc)) <= d).
Hypothesis S1 : forall mu t p fc f0, In mu (cfg_chempots c) -> In t (skipn 1 (cfg_temps c)) -> In p ps -> maybe_corrected_data c mu t = Ret (fc, f0) ->
  Re (P K om (cfg_renpoint c) (1 / (t * m)) mu f0 fc) * renfac c <> 0 /\ forall d, 0 < d -> ev (fun J => Rabs (Re (P J om p (1 / (t * m)) mu f0 fc) - Re (P K om p (1 / (t * m)) mu f0 fc)) <= d).
Lemma ratio_ev (a b : Integrator -> R) k d : b K * k <> 0 -> 0 < d -> (forall d, 0 < d -> ev (fun J => Rabs (a J - a K) <= d)) -> (forall d, 0 < d -> ev (fun J => Rabs (b J - b K) <= d)) ->
  ev (fun J => Rabs (a J / (b J * k) - a K / (b K * k)) <= d).
Proof.
  intros Hb Hd Ha Hb'. destruct (quot_dev (a K) (b K * k) d Hb Hd) as (e & He & H).
  assert (Hk : 0 < Rabs k) by (apply Rabs_pos_lt; intros ->; apply Hb; ring).
  eapply ev_imp; [|apply ev_and; [apply (Ha e He)|apply (Hb' (e / Rabs k)); now apply Rdiv_lt_0_compat]].
  cbv beta. intros J [H1 H2]. apply H; [exact H1|]. replace (b J * k - b K * k) with ((b J - b K) * k) by ring. rewrite Rabs_mult.
  replace e with (e / Rabs k * Rabs k) by (field; lra). apply Rmult_le_compat_r; lra.
Qed.
Lemma zero_ratio mu p fc f0 d : In mu (cfg_chempots c) -> In p ps -> maybe_corrected_data c mu 0 = Ret (fc, f0) -> 0 < d ->
  ev (fun J => Rabs (Re (P0 J om p mu f0 fc) / (Re (P0 J om (cfg_renpoint c) mu f0 fc) * renfac c) - Re (P0 K om p mu f0 fc) / (Re (P0 K om (cfg_renpoint c) mu f0 fc) * renfac c)) <= d).
Proof.
  intros H1 H2 H3 Hd. apply (ratio_ev (fun J => Re (P0 J om p mu f0 fc)) (fun J => Re (P0 J om (cfg_renpoint c) mu f0 fc))); auto.
  - exact (proj1 (S0 mu _ fc f0 H1 H2 H3)).
  - exact (proj2 (S0 mu p fc f0 H1 H2 H3)).
  - exact (proj2 (S0 mu _ fc f0 H1 Hr H3)).
Qed.
Lemma temp_ratio mu t p fc f0 d : In mu (cfg_chempots c) -> In t (skipn 1 (cfg_temps c)) -> In p ps -> maybe_corrected_data c mu t = Ret (fc, f0) -> 0 < d ->
  ev (fun J => Rabs (Re (P J om p (1 / (t * m)) mu f0 fc) / (Re (P J om (cfg_renpoint c) (1 / (t * m)) mu f0 fc) * renfac c)
    - Re (P K om p (1 / (t * m)) mu f0 fc) / (Re (P K om (cfg_renpoint c) (1 / (t * m)) mu f0 fc) * renfac c)) <= d).
Proof.
  intros H1 Ht H2 H3 Hd. apply (ratio_ev (fun J => Re (P J om p (1 / (t * m)) mu f0 fc)) (fun J => Re (P J om (cfg_renpoint c) (1 / (t * m)) mu f0 fc))); auto.
  - exact (proj1 (S1 mu t _ fc f0 H1 Ht H2 H3)).
  - exact (proj2 (S1 mu t p fc f0 H1 Ht H2 H3)).
  - exact (proj2 (S1 mu t _ fc f0 H1 Ht Hr H3)).
Qed.

Lemma curve_zero_ev mu d : In mu (cfg_chempots c) -> (forall p, In p (cfg_momenta c) -> In (p * m) ps) -> 0 < d ->
  ev (fun J => within d (curve_zero (P0 J) c mu) (curve_zero (P0 K) c mu)).
Proof.
  intros Hmu Hp Hd. unfold curve_zero. destruct (maybe_corrected_data c mu 0) as [|[fc f0]] eqn:E; cbn [obind]; [apply ev_true; intros; exact I|].
  eapply ev_imp; [|apply (ev_all (fun p J => Rabs (Re (P0 J om (p * m) mu f0 fc) / (Re (P0 J om (cfg_renpoint c) mu f0 fc) * renfac c)
    - Re (P0 K om (p * m) mu f0 fc) / (Re (P0 K om (cfg_renpoint c) mu f0 fc) * renfac c)) <= d) (cfg_momenta c))].
  - cbv beta. intros J H. apply map_within. exact H.
  - intros p Hpp. apply zero_ratio; auto.
Qed.
Lemma curve_ev mu t d : In mu (cfg_chempots c) -> In t (skipn 1 (cfg_temps c)) -> (forall p, In p (cfg_momenta c) -> In (p * m) ps) -> 0 < d ->
  ev (fun J => within d (curve (P J) c mu t) (curve (P K) c mu t)).
Proof.
  intros Hmu Ht Hp Hd. unfold curve. destruct (maybe_corrected_data c mu t) as [|[fc f0]] eqn:E; cbn [obind]; [apply ev_true; intros; exact I|].
  eapply ev_imp; [|apply (ev_all (fun p J => Rabs (Re (P J om (p * m) (1 / (t * m)) mu f0 fc) / (Re (P J om (cfg_renpoint c) (1 / (t * m)) mu f0 fc) * renfac c)
    - Re (P K om (p * m) (1 / (t * m)) mu f0 fc) / (Re (P K om (cfg_renpoint c) (1 / (t * m)) mu f0 fc) * renfac c)) <= d) (cfg_momenta c))].
  - cbv beta. intros J H. apply map_within. exact H.
  - intros p Hpp. apply temp_ratio; auto.
Qed.
Hypothesis Hpb : In (cfg_pbase c * m) ps.
Lemma ir_ev mu d : In mu (cfg_chempots c) -> 0 < d -> ev (fun J => within d (ir_values (P0 J) (P J) c mu) (ir_values (P0 K) (P K) c mu)).
Proof.
  intros Hmu Hd. unfold ir_values. destruct (maybe_corrected_data c mu 0) as [|[fc f0]] eqn:E; cbn [obind]; [apply ev_true; intros; exact I|].
  eapply ev_imp; [|apply ev_and; [apply (zero_ratio mu (cfg_pbase c * m) fc f0 d); auto|]; apply (ev_all (fun t J => within1 d
      (obind (maybe_corrected_data c mu t) (fun d : FieldConfig * R => let '(fc, f0) := d in
        Ret (Re (P J om (cfg_pbase c * m) (1 / (t * m)) mu f0 fc) / (Re (P J om (cfg_renpoint c) (1 / (t * m)) mu f0 fc) * renfac c))))
      (obind (maybe_corrected_data c mu t) (fun d : FieldConfig * R => let '(fc, f0) := d in
        Ret (Re (P K om (cfg_pbase c * m) (1 / (t * m)) mu f0 fc) / (Re (P K om (cfg_renpoint c) (1 / (t * m)) mu f0 fc) * renfac c))))) (skipn 1 (cfg_temps c)))].
  - cbv beta. intros J [H1 H2]. apply omap_within in H2. unfold om, m in H2. cbv zeta.
    destruct (omap _ (skipn 1 (cfg_temps c))), (omap _ (skipn 1 (cfg_temps c))); cbn [obind within] in *; try contradiction; try exact I. constructor; auto.
  - intros t Ht. destruct (maybe_corrected_data c mu t) as [|[fc' f0']] eqn:E'; cbn [obind within1]; [apply ev_true; intros; exact I|]. apply temp_ratio; auto.
Qed.
End Ev.
