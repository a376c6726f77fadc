(** * physical_tc: the whole program, second differences, file names *)
From Coq Require Import Reals List ZArith Psatz Lia.
From Coquelicot Require Import Coquelicot.
From Verif Require Import Num MConsts MVacuum MUtils MDress MTc MPhase SpecConsts SpecTc SpecPhase PTc PTc2 PPhase.
Import List ListNotations.
Open Scope R_scope.

Lemma fresh_data temps chempots momenta om renpoint f0_init fc mu t :
  maybe_corrected_data (Config_new temps chempots momenta om renpoint f0_init fc) mu t <> Panic.
Proof. discriminate. Qed.

Lemma corrected_panic c mu t pb : cfg_correctedfieldconfig c <> None -> cfg_correctedf0 c <> None ->
  maybe_corrected_data (set_phase_boundary (Some pb) c) mu t = Panic <-> is_deconfined_phase mu t pb = Panic.
Proof.
  intros H1 H2. unfold maybe_corrected_data. simpl. rewrite deconf_reduced.
  destruct (cfg_correctedfieldconfig c); [|congruence]. destruct (cfg_correctedf0 c); [|congruence].
  destruct (is_deconfined_phase mu t pb) as [|[]]; split; auto; discriminate.
Qed.

Lemma deconf_first_panic mu t mu0 tc0 pb : is_deconfined_phase mu t ((mu0, tc0) :: pb) = Panic <-> tc0 = 0 \/ mu < mu0.
Proof.
  rewrite deconf_panic. simpl. destruct (Req_EM_T tc0 0) as [->|N].
  - split; auto.
  - split.
    + intros [E|(m0 & t0 & pb' & E & H)]; [discriminate|]. injection E as <- <- <-. auto.
    + intros [E|H]; [contradiction|]. right. do 3 eexists. split; [reflexivity|auto].
Qed.

Lemma diagram_ret P0 P c pb d2 : compute_phase_diagram P0 P c = Ret (pb, d2) ->
  length pb = length (cfg_chempots c) /\ map fst pb = cfg_chempots c /\
  second_differences (cfg_chempots c) (map snd pb) = Ret d2.
Proof.
  intros E. unfold compute_phase_diagram in E.
  apply obind_ret in E. destruct E as (tcs & E & E'). apply obind_ret in E'. destruct E' as (x & E2 & E').
  injection E' as <- ->. apply omap_ret in E. destruct E as [L _].
  assert (map fst (combine (cfg_chempots c) tcs) = cfg_chempots c /\ map snd (combine (cfg_chempots c) tcs) = tcs).
  { revert L. generalize (cfg_chempots c). clear. intros l. revert tcs.
    induction l as [|a l IH]; intros [|b tcs]; simpl; try discriminate; auto.
    intros L. injection L as L. destruct (IH _ L) as [-> ->]. auto. }
  destruct H as [H1 H2]. rewrite H1, H2. split; [|auto]. rewrite combine_length. lia.
Qed.

Definition physical_start (J : Integrator) (g : globals R) (d : InputData) : Config :=
  Config_new (in_manytemps d) (in_manychempots d) (in_momenta d) (in_om d) (in_renpoint d) (in_f0 d)
    (FieldConfig_new 3 (in_mg d) [(2%nat, fst (fst (in_mq d))); (1%nat, snd (fst (in_mq d)))]).

Lemma main_panic J g fit d :
  physical_tc_main J g fit d = Panic <->
  (length (compute_vec (in_manychempots d)) < 4)%nat \/
  exists pb d2, compute_phase_diagram (prop_l0 J g) (prop_l J g) (physical_start J g d) = Ret (pb, d2) /\
    (snd (hd (0, 0) pb) = 0 \/
     (exists mu, (In mu (compute_vec (in_manychempots d)) \/ In mu (compute_vec (in_fewchempots d))) /\
        mu < hd 0 (compute_vec (in_manychempots d))) \/
     fit (reduce_phase_boundary pb) = Panic).
Proof.
  unfold physical_tc_main, physical_start. destruct (in_mq d) as [[mq1 mq2] mq3]. destruct (in_mqc d) as [[mq1c mq2c] mq3c].
  cbn [fst snd]. set (fc := FieldConfig_new _ _ _). set (cfc := FieldConfig_new 3 _ [(2%nat, mq1c); _]).
  set (cN := fun ts cs => Config_new ts cs (in_momenta d) (in_om d) (in_renpoint d) (in_f0 d) fc).
  assert (NP : forall P0 P ts cs, compute_propagators P0 P (cN ts cs) <> Panic).
  { intros P0 P ts cs E. apply propagators_panic in E. destruct E as (mu & t & _ & _ & E). discriminate. }
  assert (NI : forall P0 P ts cs, compute_ir_limit P0 P (cN ts cs) <> Panic).
  { intros P0 P ts cs E. apply ir_panic in E. destruct E as (mu & t & _ & _ & E). discriminate. }
  assert (ND : forall P0 P ts cs, compute_phase_diagram P0 P (cN ts cs) = Panic <-> (length (compute_vec cs) < 4)%nat).
  { intros P0 P ts cs. rewrite diagram_panic by apply compute_vec_nonempty. split; [|auto].
    intros [H|(mu & t & _ & _ & E)]; [exact H|discriminate]. }
  change (Config_new (in_fewtemps d) (in_fewchempots d) (in_momenta d) (in_om d) (in_renpoint d) (in_f0 d) fc)
    with (cN (in_fewtemps d) (in_fewchempots d)).
  change (Config_new (in_manytemps d) (in_manychempots d) (in_momenta d) (in_om d) (in_renpoint d) (in_f0 d) fc)
    with (cN (in_manytemps d) (in_manychempots d)).
  pose proof (NP (prop_l0 J g) (prop_l J g) (in_fewtemps d) (in_fewchempots d)) as N1.
  destruct (compute_propagators (prop_l0 J g) (prop_l J g) _) as [|long]; [congruence|]. cbn [obind].
  pose proof (NP (prop_t0 J g) (prop_t J g) (in_fewtemps d) (in_fewchempots d)) as N2.
  destruct (compute_propagators (prop_t0 J g) (prop_t J g) _) as [|trans]; [congruence|]. cbn [obind]. cbv zeta.
  change (set_chemicalpotentials (in_morechempots d) (set_temperatures (in_moretemps d) (cN (in_fewtemps d) (in_fewchempots d))))
    with (cN (in_moretemps d) (in_morechempots d)).
  pose proof (NI (prop_l0 J g) (prop_l J g) (in_moretemps d) (in_morechempots d)) as N3.
  destruct (compute_ir_limit (prop_l0 J g) (prop_l J g) _) as [|ir]; [congruence|]. cbn [obind].
  change (set_chemicalpotentials (in_manychempots d) (set_temperatures (in_manytemps d) (cN (in_moretemps d) (in_morechempots d))))
    with (cN (in_manytemps d) (in_manychempots d)).
  specialize (ND (prop_l0 J g) (prop_l J g) (in_manytemps d) (in_manychempots d)).
  destruct (compute_phase_diagram (prop_l0 J g) (prop_l J g) (cN (in_manytemps d) (in_manychempots d))) as [|[pb d2]] eqn:ED.
  { cbn [obind]. split; auto. intros _. left. now apply ND. }
  assert (NL : ~ (length (compute_vec (in_manychempots d)) < 4)%nat) by (intros H; apply ND in H; discriminate).
  cbn [obind fst snd].
  assert (Hpb : exists mu0 tc0 pb', pb = (mu0, tc0) :: pb' /\ mu0 = hd 0 (compute_vec (in_manychempots d))).
  { apply diagram_ret in ED. destruct ED as (L & M & _). cbn [cN Config_new cfg_chempots] in L, M.
    destruct pb as [|[mu0 tc0] pb']; [simpl in L; lia|]. exists mu0, tc0, pb'. split; auto. rewrite <- M. reflexivity. }
  destruct Hpb as (mu0 & tc0 & pb' & -> & Hmu0). rewrite <- Hmu0. cbn [hd snd].
  unfold set_correctedfieldconfig, set_correctedf0.
  cbn [cfg_write_correctedfieldconfig cfg_correctedfieldconfig cN Config_new cfg_fieldconfig fc FieldConfig_new fc_quarks cfc corrected_sum obind].
  match goal with |- context [set_phase_boundary (Some ?b) ?x] => set (c1 := x); set (c2 := set_phase_boundary (Some b) c1) end.
  assert (MP : forall c' mu t, cfg_correctedfieldconfig c' = cfg_correctedfieldconfig c2 ->
     cfg_correctedf0 c' = cfg_correctedf0 c2 -> cfg_phase_boundary c' = cfg_phase_boundary c2 ->
     (maybe_corrected_data c' mu t = Panic <-> tc0 = 0 \/ mu < mu0)).
  { intros c' mu t E1 E2 E3.
    assert (X : maybe_corrected_data c' mu t = Panic <-> maybe_corrected_data c2 mu t = Panic).
    { unfold maybe_corrected_data. rewrite E1, E2, E3. cbn. destruct (is_deconfined_phase _ _ _) as [|[]]; split; auto; discriminate. }
    rewrite X. unfold c2. rewrite corrected_panic by discriminate. apply deconf_first_panic. }
  assert (C2 : cfg_chempots c2 = compute_vec (in_manychempots d)) by reflexivity.
  assert (HI : In mu0 (compute_vec (in_manychempots d))).
  { rewrite Hmu0. destruct (compute_vec (in_manychempots d)) eqn:E; [exfalso; revert E; apply compute_vec_nonempty|left; reflexivity]. }
  assert (D2 : compute_phase_diagram (prop_l0 J g) (prop_l J g) c2 = Panic <->
      tc0 = 0 \/ exists mu, In mu (compute_vec (in_manychempots d)) /\ mu < mu0).
  { rewrite diagram_panic by (apply (compute_vec_nonempty (in_manytemps d))). rewrite C2. split.
    - intros [H|(mu & t & I & _ & E)]; [contradiction|]. apply MP in E; auto. destruct E as [E|E]; [auto|]. right; eauto.
    - intros [E|(mu & I & H)]; right.
      + exists mu0, 0. split; auto. split; auto. apply MP; auto.
      + exists mu, 0. split; auto. split; auto. apply MP; auto. }
  set (c3 := set_chemicalpotentials (in_fewchempots d) (set_temperatures (in_fewtemps d) c2)).
  assert (C3 : cfg_chempots c3 = compute_vec (in_fewchempots d)) by reflexivity.
  assert (P3 : forall P0 P, compute_propagators P0 P c3 = Panic <->
      tc0 = 0 \/ exists mu, In mu (compute_vec (in_fewchempots d)) /\ mu < mu0).
  { intros P0 P. rewrite propagators_panic. rewrite C3. split.
    - intros (mu & t & I & _ & E). apply MP in E; auto. destruct E as [E|E]; [auto|]. right; eauto.
    - intros [E|(mu & I & H)].
      + exists (hd 0 (compute_vec (in_fewchempots d))), 0. split.
        * destruct (compute_vec (in_fewchempots d)) eqn:Ev; [exfalso; revert Ev; apply compute_vec_nonempty|left; reflexivity].
        * split; auto. apply MP; auto.
      + exists mu, 0. split; auto. split; auto. apply MP; auto. }
  change (cfg_phase_boundary c2) with (Some (reduce_phase_boundary ((mu0, tc0) :: pb'))).
  split.
  - intros H. right. do 2 eexists. split; [reflexivity|].
    apply obind_panic in H. destruct H as [H|([b1 b2] & _ & H)].
    { apply D2 in H. destruct H as [H|(mu & I & H)]; [auto|]. right; left; eauto. }
    apply obind_panic in H. destruct H as [H|(params & _ & H)]; [auto|].
    apply obind_panic in H. destruct H as [H|(x1 & _ & H)].
    { apply P3 in H. destruct H as [H|(mu & I & H)]; [auto|]. right; left; eauto. }
    apply obind_panic in H. destruct H as [H|(x2 & _ & H)]; [|discriminate].
    apply P3 in H. destruct H as [H|(mu & I & H)]; [auto|]. right; left; eauto.
  - intros [H|(pb0 & d0 & E & H)]; [contradiction|]. injection E as <- <-. cbn [hd snd] in H.
    destruct (compute_phase_diagram (prop_l0 J g) (prop_l J g) c2) as [|[b1 b2]]; [reflexivity|]. cbn [obind].
    destruct H as [H|[(mu & [I|I] & H)|H]].
    + assert (X : @Ret (list (R * R) * list (R * R)) (b1, b2) = Panic) by (apply D2; auto). discriminate.
    + assert (X : @Ret (list (R * R) * list (R * R)) (b1, b2) = Panic) by (apply D2; eauto). discriminate.
    + destruct (fit _); [reflexivity|]. cbn [obind].
      assert (X : compute_propagators (prop_l0 J g) (prop_l J g) c3 = Panic) by (apply P3; eauto). rewrite X. reflexivity.
    + rewrite H. reflexivity.
Qed.

(** ** Second differences *)
Lemma second_spec ch tcs l : length tcs = length ch -> second_differences ch tcs = Ret l ->
  (4 <= length ch)%nat /\ length l = (length ch - 4)%nat /\
  forall i mu t0 t2 t4 c0 c1, (i + 4 < length ch)%nat ->
    nth_error ch 0 = Some c0 -> nth_error ch 1 = Some c1 -> nth_error ch (i + 2) = Some mu ->
    nth_error tcs i = Some t0 -> nth_error tcs (i + 2) = Some t2 -> nth_error tcs (i + 4) = Some t4 ->
    nth_error l i = Some (mu, (t4 + t0 - 2 * t2) / (4 * (c1 - c0) ^ 2)).
Proof.
  intros L E.
  assert (G : (4 <= length ch)%nat).
  { destruct (Nat.lt_ge_cases (length ch) 4) as [H|]; auto. apply (second_panic _ tcs) in H; auto. congruence. }
  split; auto. destruct ch as [|c0 [|c1 ch]]; simpl in G; try lia. unfold second_differences in E.
  cbn [oidx nth_error obind] in E.
  replace (Nat.ltb _ _) with false in E by (symmetry; apply Nat.ltb_ge; simpl in *; unfold D2W; lia).
  apply omap_ret in E. destruct E as [E H]. rewrite seq_length in E. unfold D2W in *. split; [lia|].
  intros i mu t0 t2 t4 c0' c1' Hi H0 H1 Hmu Ht0 Ht2 Ht4. cbn in H0, H1. injection H0 as <-. injection H1 as <-.
  destruct (nth_error l i) as [[a b]|] eqn:El; [|apply nth_error_None in El; simpl in *; lia].
  assert (S : nth_error (seq 2 (length (c0 :: c1 :: ch) - 2 - 2)) i = Some (i + 2)%nat).
  { rewrite (nth_error_nth' _ 0%nat) by (rewrite seq_length; simpl in *; lia). rewrite seq_nth by (simpl in *; lia). f_equal. lia. }
  specialize (H _ _ _ S El). unfold oidx in H.
  replace (i + 2 + 2)%nat with (i + 4)%nat in H by lia. replace (i + 2 - 2)%nat with i in H by lia.
  rewrite Ht4, Ht0, Ht2, Hmu in H. cbn [obind] in H. injection H as <- <-. f_equal. f_equal.
  unfold Rdiv. f_equal. f_equal. simpl. ring.
Qed.

Lemma grid_nth v0 v1 dv k x : nth_error (compute_vec (v0, v1, dv)) k = Some x -> x = v0 + dv * INR k.
Proof.
  unfold compute_vec. rewrite nth_error_map. intros H.
  set (n := S _) in H. destruct (Nat.lt_ge_cases k n) as [L|L].
  - rewrite (nth_error_nth' _ 0%nat) in H by (now rewrite seq_length). rewrite seq_nth in H by auto. simpl in H. now injection H as <-.
  - replace (nth_error (seq 0 n) k) with (@None nat) in H by (symmetry; apply nth_error_None; now rewrite seq_length). discriminate.
Qed.

(** every entry of the second-difference table, by index *)
Lemma second_entry P0 P c v0 v1 dv pb d2 mu x : cfg_chempots c = compute_vec (v0, v1, dv) -> dv <> 0 ->
  compute_phase_diagram P0 P c = Ret (pb, d2) -> In (mu, x) d2 ->
  exists i m0 m1 m3 m4 t0 t1 t2 t3 t4,
    nth_error pb i = Some (m0, t0) /\ nth_error pb (i + 1) = Some (m1, t1) /\ nth_error pb (i + 2) = Some (mu, t2) /\
    nth_error pb (i + 3) = Some (m3, t3) /\ nth_error pb (i + 4) = Some (m4, t4) /\
    m0 = mu - 2 * dv /\ m4 = mu + 2 * dv /\ x = (t4 + t0 - 2 * t2) / (4 * dv ^ 2).
Proof.
  intros Ec Hd E I. apply diagram_ret in E. destruct E as (L & M & E).
  assert (L' : length (map snd pb) = length (cfg_chempots c)) by (rewrite map_length; exact L).
  destruct (second_spec _ _ _ L' E) as (G & Ll & H). apply In_nth_error in I. destruct I as [i Hi].
  assert (Li : (i < length d2)%nat) by (apply nth_error_Some; congruence).
  assert (N : forall k, (k <= 4)%nat -> exists m t, nth_error pb (i + k) = Some (m, t) /\
     nth_error (cfg_chempots c) (i + k) = Some m /\ nth_error (map snd pb) (i + k) = Some t).
  { intros k Hk. destruct (nth_error pb (i + k)) as [[m t]|] eqn:En; [|apply nth_error_None in En; lia].
    exists m, t. split; auto. rewrite <- M, !nth_error_map, En. auto. }
  destruct (N 0%nat) as (m0 & t0 & A0 & B0 & C0); [lia|]. destruct (N 1%nat) as (m1 & t1 & A1 & B1 & C1); [lia|].
  destruct (N 2%nat) as (m2 & t2 & A2 & B2 & C2); [lia|]. destruct (N 3%nat) as (m3 & t3 & A3 & B3 & C3); [lia|].
  destruct (N 4%nat) as (m4 & t4 & A4 & B4 & C4); [lia|]. rewrite Nat.add_0_r in A0, B0, C0.
  assert (X : forall k, (k < length (cfg_chempots c))%nat -> exists y, nth_error (cfg_chempots c) k = Some y).
  { intros k Hk. destruct (nth_error (cfg_chempots c) k) eqn:En; [eauto|apply nth_error_None in En; lia]. }
  destruct (X 0%nat) as [c0 E0]; [lia|]. destruct (X 1%nat) as [c1 E1]; [lia|].
  assert (Hi' : (i + 4 < length (cfg_chempots c))%nat) by lia.
  rewrite (H i m2 t0 t2 t4 c0 c1 Hi' E0 E1 B2 C0 C2 C4) in Hi. injection Hi as <- <-.
  exists i, m0, m1, m3, m4, t0, t1, t2, t3, t4. do 5 (split; [assumption|]).
  rewrite Ec in *. apply grid_nth in B0, B2, B4, E0, E1. rewrite !plus_INR in B2, B4. simpl in *.
  repeat split; try lra. f_equal. f_equal. replace (c1 - c0) with dv by lra. ring.
Qed.

Lemma second_exact P0 P c v0 v1 dv pb d2 a b e : cfg_chempots c = compute_vec (v0, v1, dv) -> dv <> 0 ->
  compute_phase_diagram P0 P c = Ret (pb, d2) ->
  (forall mu tc, In (mu, tc) pb -> tc = a * mu ^ 2 + b * mu + e) ->
  forall mu x, In (mu, x) d2 -> x = 2 * a.
Proof.
  intros Ec Hd E Q mu x I.
  destruct (second_entry _ _ _ _ _ _ _ _ _ _ Ec Hd E I) as (i & m0 & m1 & m3 & m4 & t0 & t1 & t2 & t3 & t4 & A0 & _ & A2 & _ & A4 & -> & -> & ->).
  apply nth_error_In in A0, A2, A4. apply Q in A0, A2, A4. subst. field. auto.
Qed.

Lemma second_concave P0 P c v0 v1 dv pb d2 : cfg_chempots c = compute_vec (v0, v1, dv) -> dv <> 0 ->
  compute_phase_diagram P0 P c = Ret (pb, d2) -> concave (map snd pb) ->
  forall mu x, In (mu, x) d2 -> x <= 0.
Proof.
  intros Ec Hd E Q mu x I.
  destruct (second_entry _ _ _ _ _ _ _ _ _ _ Ec Hd E I) as (i & m0 & m1 & m3 & m4 & t0 & t1 & t2 & t3 & t4 & A0 & A1 & A2 & A3 & A4 & -> & -> & ->).
  assert (X : forall k m t, nth_error pb k = Some (m, t) -> nth_error (map snd pb) k = Some t)
    by (intros k m t H; rewrite nth_error_map, H; reflexivity).
  apply X in A0, A1, A2, A3, A4. 
  pose proof (Q i _ _ _ A0 A1 A2) as Q1.
  replace (i + 2)%nat with (i + 1 + 1)%nat in A2 by lia. replace (i + 3)%nat with (i + 1 + 2)%nat in A3 by lia.
  pose proof (Q (i + 1)%nat _ _ _ A1 A2 A3) as Q2.
  replace (i + 1 + 1)%nat with (i + 2)%nat in A2 by lia. replace (i + 1 + 2)%nat with (i + 2 + 1)%nat in A3 by lia.
  replace (i + 4)%nat with (i + 2 + 2)%nat in A4 by lia.
  pose proof (Q (i + 2)%nat _ _ _ A2 A3 A4) as Q3.
  assert (0 < dv ^ 2) by (apply pow2_gt_0; auto).
  assert (0 < / (4 * dv ^ 2)) by (apply Rinv_0_lt_compat; lra).
  unfold Rdiv. nra.
Qed.

Lemma second_rows P0 P c pb d2 : compute_phase_diagram P0 P c = Ret (pb, d2) ->
  (4 <= length pb)%nat /\ length d2 = (length pb - 4)%nat.
Proof.
  intros E. apply diagram_ret in E. destruct E as (L & M & E).
  assert (L' : length (map snd pb) = length (cfg_chempots c)) by (rewrite map_length; exact L).
  destruct (second_spec _ _ _ L' E) as (G & Ll & _). rewrite L. auto.
Qed.

(** ** Names of the output files *)
Definition fname (rd : R -> Z) (f : OutFile) : Z * Z := (rd (of_t f), rd (of_mu f)).

Lemma nearest_sep rd x y : nearest rd -> / 10000 < Rabs (x - y) -> rd x <> rd y.
Proof.
  intros N H E. pose proof (N x) as Hx. pose proof (N y) as Hy. rewrite E in Hx.
  apply Rabs_le_between in Hx. apply Rabs_le_between in Hy.
  revert H. unfold Rabs. destruct (Rcase_abs (x - y)); lra.
Qed.

Lemma grid_sep v0 v1 dv i j x y : nth_error (compute_vec (v0, v1, dv)) i = Some x ->
  nth_error (compute_vec (v0, v1, dv)) j = Some y -> / 10000 < dv -> i <> j -> / 10000 < Rabs (x - y).
Proof.
  intros Hx Hy Hd N. apply grid_nth in Hx, Hy. subst.
  replace (v0 + dv * INR i - (v0 + dv * INR j)) with (dv * (INR i - INR j)) by ring.
  rewrite Rabs_mult, (Rabs_pos_eq dv) by lra.
  assert (1 <= Rabs (INR i - INR j)).
  { rewrite !INR_IZR_INZ, <- minus_IZR, <- abs_IZR. apply IZR_le. lia. }
  nra.
Qed.

Lemma NoDup_nth_map {A B} (f : A -> B) l :
  (forall i j x y, nth_error l i = Some x -> nth_error l j = Some y -> f x = f y -> i = j) -> NoDup (map f l).
Proof.
  intros H. apply NoDup_nth_error. intros i j Hi E. rewrite map_length in Hi.
  rewrite !nth_error_map in E. destruct (nth_error l i) as [x|] eqn:Ei; [|apply nth_error_None in Ei; lia].
  destruct (nth_error l j) as [y|] eqn:Ej; simpl in E; [|discriminate]. injection E as E. eapply H; eauto.
Qed.

Lemma NoDup_concat_keyed {A B} (f : A -> B) (ls : list (list A)) :
  (forall l, In l ls -> NoDup (map f l)) ->
  (forall i j li lj x y, nth_error ls i = Some li -> nth_error ls j = Some lj -> i <> j ->
     In x li -> In y lj -> f x <> f y) ->
  NoDup (map f (concat ls)).
Proof.
  induction ls as [|l ls IH]; intros H1 H2; simpl; [constructor|]. rewrite map_app.
  assert (HN : NoDup (map f (concat ls))).
  { apply IH; [intros; apply H1; now right|]. intros i j li lj x y Hi Hj Nij.
    apply (H2 (S i) (S j) li lj x y Hi Hj). congruence. }
  assert (HD : forall a, In a (map f l) -> ~ In a (map f (concat ls))).
  { intros a Ia Ib. apply in_map_iff in Ia. destruct Ia as (x & <- & Ix). apply in_map_iff in Ib.
    destruct Ib as (y & E & Iy). apply in_concat in Iy. destruct Iy as (l' & Il' & Iy).
    apply In_nth_error in Il'. destruct Il' as [j Hj].
    apply (H2 O (S j) l l' x y eq_refl Hj); auto. }
  assert (HL : NoDup (map f l)) by (apply H1; now left).
  revert HD HL. generalize (map f l). intros k. induction k as [|a k IHk]; simpl; auto.
  intros HD HL. inversion HL; subst. constructor.
  - rewrite in_app_iff. intros [I|I]; [auto|]. apply (HD a); auto.
  - apply IHk; [intros b Ib; apply HD; now right|assumption].
Qed.

Lemma files_distinct P0 P rd temps chempots momenta om renpoint f0_init fc h c files t0 t1 dt m0 m1 dm :
  nearest rd ->
  cfg_run (Config_new temps chempots momenta om renpoint f0_init fc) h = Ret c ->
  cfg_temps c = compute_vec (t0, t1, dt) -> cfg_chempots c = compute_vec (m0, m1, dm) ->
  0 <= t0 -> / 10000 < dt -> / 10000 < dm ->
  compute_propagators P0 P c = Ret files -> NoDup (map (fname rd) (concat files)).
Proof.
  intros N Er Et Ec H0 Hdt Hdm E. apply omap_ret in E. destruct E as [L H].
  assert (X : forall i fs, nth_error files i = Some fs -> exists mu, nth_error (cfg_chempots c) i = Some mu /\
    (forall f, In f fs -> of_mu f = mu) /\
    (forall j f, nth_error fs j = Some f -> exists t, nth_error (cfg_temps c) j = Some t /\ of_t f = entry_temp j t)).
  { intros i fs Hi. assert (Hl : (i < length (cfg_chempots c))%nat) by (rewrite <- L; apply nth_error_Some; congruence).
    destruct (nth_error (cfg_chempots c) i) as [mu|] eqn:Hmu; [|apply nth_error_None in Hmu; lia].
    exists mu. split; auto. specialize (H _ _ _ Hmu Hi). unfold propagator_files_at in H.
    apply obind_ret in H. destruct H as (v0 & _ & H). apply obind_ret in H. destruct H as (fs' & Efs & H).
    injection H as <-. apply omap_ret in Efs. destruct Efs as [L' H].
    destruct (cfg_temps c) as [|a ts] eqn:Ets; [exfalso; eapply compute_vec_nonempty; symmetry; eassumption|].
    simpl skipn in *.
    assert (Y : forall j f, nth_error fs' j = Some f -> exists t, nth_error ts j = Some t /\ of_t f = t /\ of_mu f = mu).
    { intros j f Hj. assert (Hlj : (j < length ts)%nat) by (rewrite <- L'; apply nth_error_Some; congruence).
      destruct (nth_error ts j) as [t|] eqn:Htj; [|apply nth_error_None in Htj; lia]. exists t. split; auto.
      specialize (H _ _ _ Htj Hj). apply obind_ret in H. destruct H as (v & _ & H). injection H as <-. auto. }
    split.
    - intros f [<-|I]; [reflexivity|]. apply In_nth_error in I. destruct I as [j Hj]. destruct (Y _ _ Hj) as (t & _ & _ & R). exact R.
    - intros [|j] f Hj; simpl in Hj.
      + injection Hj as <-. exists a. auto.
      + destruct (Y _ _ Hj) as (t & A & B & _). exists t. auto. }
  apply NoDup_concat_keyed.
  - intros fs I. apply In_nth_error in I. destruct I as [i Hi]. destruct (X _ _ Hi) as (mu & _ & _ & Ht).
    apply NoDup_nth_map. intros j k f f' Hj Hk E. injection E as E _.
    destruct (Ht _ _ Hj) as (t & Htj & Hf). destruct (Ht _ _ Hk) as (t' & Htk & Hf').
    destruct (Nat.eq_dec j k) as [|Njk]; auto. exfalso. revert E. apply nearest_sep; auto. rewrite Hf, Hf'.
    rewrite Et in Htj, Htk. pose proof (grid_sep _ _ _ _ _ _ _ Htj Htk Hdt Njk) as S.
    apply grid_nth in Htj, Htk. destruct j as [|j]; destruct k as [|k]; simpl entry_temp; auto.
    + congruence.
    + rewrite Htk, S_INR. pose proof (pos_INR k). rewrite Rabs_left1 by nra. nra.
    + rewrite Htj, S_INR. pose proof (pos_INR j). rewrite Rabs_pos_eq by nra. nra.
  - intros i j li lj x y Hi Hj Nij Ix Iy E. injection E as _ E.
    destruct (X _ _ Hi) as (mu & Hmu & Hx & _). destruct (X _ _ Hj) as (mu' & Hmu' & Hy & _).
    rewrite (Hx _ Ix), (Hy _ Iy) in E. revert E. apply nearest_sep; auto. rewrite Ec in *.
    eapply grid_sep; eauto.
Qed.

Lemma Int_part_eq x z : IZR z <= x < IZR z + 1 -> Int_part x = z.
Proof.
  intros [H1 H2]. unfold Int_part. rewrite <- (tech_up x (z + 1)); [lia| |]; rewrite plus_IZR; lra.
Qed.

(** A finer grid of temperatures: three files get one name. *)
Lemma files_collide P0 P rd : nearest rd ->
  exists c files f f', c = Config_new (0, 2 / 100000, / 100000) (0, 0, 1) (1, 2, 1) 1 1 0 (FieldConfig_new 3 1 []) /\
    compute_propagators P0 P c = Ret files /\ In f (concat files) /\ In f' (concat files) /\
    of_t f <> of_t f' /\ fname rd f = fname rd f'.
Proof.
  intros N. set (c := Config_new _ _ _ _ _ _ _).
  assert (T : cfg_temps c = [0 + / 100000 * INR 0; 0 + / 100000 * INR 1; 0 + / 100000 * INR 2]).
  { unfold c, Config_new, compute_vec. cbn [cfg_temps]. replace ((2 / 100000 - 0) / / 100000) with 2 by field.
    replace (Z.to_nat (fround 2)) with 2%nat; [reflexivity|].
    unfold fround. destruct (Rle_dec 0 2); [|lra]. rewrite (Int_part_eq _ 2) by lra. reflexivity. }
  assert (M : cfg_chempots c = [0 + 1 * INR 0]).
  { unfold c, Config_new, compute_vec. cbn [cfg_chempots]. replace ((0 - 0) / 1) with 0 by field.
    replace (Z.to_nat (fround 0)) with 0%nat; [reflexivity|].
    unfold fround. destruct (Rle_dec 0 0); [|lra]. rewrite (Int_part_eq _ 0) by lra. reflexivity. }
  assert (F : exists r0 r1 r2, compute_propagators P0 P c = Ret [[mkOutFile 0 (0 + 1 * INR 0) r0;
     mkOutFile (0 + / 100000 * INR 1) (0 + 1 * INR 0) r1; mkOutFile (0 + / 100000 * INR 2) (0 + 1 * INR 0) r2]]).
  { unfold compute_propagators. rewrite M. cbn [omap]. unfold propagator_files_at. rewrite T. cbn [skipn omap].
    unfold curve_zero, curve. cbn [maybe_corrected_data c Config_new cfg_correctedfieldconfig cfg_correctedf0 cfg_phase_boundary obind].
    do 3 eexists. reflexivity. }
  destruct F as (r0 & r1 & r2 & F). exists c. do 3 eexists. split; [reflexivity|]. split; [exact F|]. cbn [concat app].
  split; [left; reflexivity|]. split; [right; left; reflexivity|]. unfold fname. cbn [of_t of_mu]. split; [simpl; lra|].
  apply (f_equal2 pair); [|reflexivity]. clear T M F. pose proof (N 0) as A. pose proof (N (0 + / 100000 * INR 1)) as B. simpl in *.
  apply Rabs_le_between in A. apply Rabs_le_between in B. apply eq_IZR. 
  assert (Z0 : forall z, - (1) < IZR z < 1 -> IZR z = 0).
  { intros z [H1 H2]. assert (- (1) < z)%Z by (apply lt_IZR; simpl; lra). assert (z < 1)%Z by (apply lt_IZR; lra). replace z with 0%Z by lia. reflexivity. }
  rewrite (Z0 (rd 0)) by (split; lra). symmetry. apply Z0. simpl. split; lra.
Qed.
