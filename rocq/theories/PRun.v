(** * Whole runs of the phase-diagram program *)
From Coq Require Import Reals List ZArith Psatz Lia Sorted.
From Coquelicot Require Import Coquelicot.
From Verif Require Import Num MConsts MVacuum MUtils MDress MTc MPhase SpecConsts SpecTc SpecPhase SpecRun PTc PTc2 PPhase PPhase2.
Import List ListNotations.
Open Scope R_scope.

(** Configurations with the same grids, scales and gluon mass. *)
Definition alike (c c' : Config) : Prop :=
  cfg_om c = cfg_om c' /\ cfg_renpoint c = cfg_renpoint c' /\ cfg_renpoint2 c = cfg_renpoint2 c' /\
  fc_gluon (cfg_fieldconfig c) = fc_gluon (cfg_fieldconfig c') /\ cfg_temps c = cfg_temps c' /\ cfg_chempots c = cfg_chempots c' /\
  cfg_momenta c = cfg_momenta c' /\ cfg_pbase c = cfg_pbase c'.

Lemma alike_sym c c' : alike c c' -> alike c' c.
Proof. unfold alike. intuition congruence. Qed.

Lemma nth_ext' {A} (l l' : list A) : (forall j, nth_error l j = nth_error l' j) -> l = l'.
Proof.
  revert l'. induction l as [|a l IH]; intros [|b l'] H; auto; try (specialize (H 0%nat); discriminate).
  f_equal; [specialize (H 0%nat); now injection H|]. apply IH. intros j. exact (H (S j)).
Qed.

Section Patch.
Context (P0 : R -> R -> R -> R -> FieldConfig -> C) (P : R -> R -> R -> R -> R -> FieldConfig -> C).

Lemma skip1_nth {A} (l : list A) j : nth_error (skipn 1 l) j = nth_error l (S j).
Proof. destruct l; auto. destruct j; auto. Qed.
Lemma omap_nth {A B} (f : A -> outcome B) l ys i x : omap f l = Ret ys -> nth_error l i = Some x -> exists y, nth_error ys i = Some y /\ f x = Ret y.
Proof.
  intros E H. destruct (omap_ret f l ys E) as [L N]. destruct (nth_error ys i) as [y|] eqn:Y; [eauto|].
  exfalso. apply nth_error_None in Y. assert (i < length l)%nat by (apply nth_error_Some; congruence). lia.
Qed.

Lemma ir_patch c c' mu vals vals' j t : alike c c' -> ir_values P0 P c mu = Ret vals -> ir_values P0 P c' mu = Ret vals' ->
  nth_error (cfg_temps c) j = Some t -> maybe_corrected_data c mu (entry_temp j t) = maybe_corrected_data c' mu (entry_temp j t) ->
  exists v, nth_error vals j = Some v /\ nth_error vals' j = Some v.
Proof.
  intros (A1 & A2 & A3 & A4 & A5 & A6 & A7 & A8) E E' H D. unfold ir_values in E, E'.
  apply obind_ret in E. destruct E as ((fc, f0) & E0 & E). apply obind_ret in E'. destruct E' as ((fc', f0') & E0' & E').
  apply obind_ret in E. destruct E as (vs & E1 & E). apply obind_ret in E'. destruct E' as (vs' & E1' & E'). injection E as <-. injection E' as <-.
  destruct j as [|j]; cbn [nth_error].
  - cbn [entry_temp] in D. rewrite E0, E0' in D. injection D as <- <-. eexists. split; [reflexivity|]. unfold renfac. now rewrite A1, A2, A3, A4, A8.
  - cbn [entry_temp] in D. rewrite <- skip1_nth in H. destruct (omap_nth _ _ _ _ _ E1 H) as (v & V & F).
    rewrite A5 in H. destruct (omap_nth _ _ _ _ _ E1' H) as (v' & V' & F'). exists v. split; auto. rewrite V'. f_equal.
    cbv zeta in F, F'. apply obind_ret in F. destruct F as ((gc, h0) & G & F). apply obind_ret in F'. destruct F' as ((gc', h0') & G' & F').
    rewrite G, G' in D. injection D as <- <-. injection F as <-. injection F' as <-. unfold renfac. now rewrite A1, A2, A3, A4, A8.
Qed.

Lemma ir_length c mu vals : ir_values P0 P c mu = Ret vals -> cfg_temps c <> [] -> length vals = length (cfg_temps c).
Proof.
  unfold ir_values. intros E N. apply obind_ret in E. destruct E as ((fc, f0) & E0 & E). apply obind_ret in E. destruct E as (vs & E1 & E). injection E as <-.
  apply omap_ret in E1. destruct E1 as [L _]. cbn [length]. rewrite L. destruct (cfg_temps c); [congruence|reflexivity].
Qed.

Lemma files_patch c c' mu fs fs' j t : alike c c' -> propagator_files_at P0 P c mu = Ret fs -> propagator_files_at P0 P c' mu = Ret fs' ->
  nth_error (cfg_temps c) j = Some t -> maybe_corrected_data c mu (entry_temp j t) = maybe_corrected_data c' mu (entry_temp j t) ->
  exists f, nth_error fs j = Some f /\ nth_error fs' j = Some f.
Proof.
  intros (A1 & A2 & A3 & A4 & A5 & A6 & A7 & A8) E E' H D. unfold propagator_files_at in E, E'.
  apply obind_ret in E. destruct E as (v0 & E0 & E). apply obind_ret in E'. destruct E' as (v0' & E0' & E').
  apply obind_ret in E. destruct E as (l & E1 & E). apply obind_ret in E'. destruct E' as (l' & E1' & E'). injection E as <-. injection E' as <-.
  destruct j as [|j]; cbn [nth_error].
  - cbn [entry_temp] in D. unfold curve_zero in E0, E0'. rewrite D in E0. rewrite A1, A2, A4, A7 in E0. unfold renfac in *. rewrite A3, A4 in E0. rewrite E0' in E0. injection E0 as ->. rewrite A7. eauto.
  - cbn [entry_temp] in D. rewrite <- skip1_nth in H. destruct (omap_nth _ _ _ _ _ E1 H) as (v & V & F).
    rewrite A5 in H. destruct (omap_nth _ _ _ _ _ E1' H) as (v' & V' & F'). exists v. split; auto. rewrite V'. f_equal.
    apply obind_ret in F. destruct F as (w & G & F). apply obind_ret in F'. destruct F' as (w' & G' & F').
    unfold curve in G, G'. rewrite D in G. rewrite A1, A2, A4, A7 in G. unfold renfac in *. rewrite A3, A4 in G. rewrite G' in G. injection G as ->. rewrite A7 in F. congruence.
Qed.

Lemma file_label c mu fs j t f : propagator_files_at P0 P c mu = Ret fs -> nth_error (cfg_temps c) j = Some t -> nth_error fs j = Some f -> of_mu f = mu /\ of_t f = entry_temp j t.
Proof.
  intros E H F. unfold propagator_files_at in E. apply obind_ret in E. destruct E as (v0 & E0 & E). apply obind_ret in E. destruct E as (l & E1 & E). injection E as <-.
  destruct j as [|j]; cbn [nth_error] in F; [injection F as <-; auto|]. rewrite <- skip1_nth in H. destruct (omap_nth _ _ _ _ _ E1 H) as (v & V & G). rewrite F in V. injection V as <-.
  apply obind_ret in G. destruct G as (w & _ & G). injection G as <-. auto.
Qed.
Lemma files_length c mu fs : propagator_files_at P0 P c mu = Ret fs -> cfg_temps c <> [] -> length fs = length (cfg_temps c).
Proof.
  intros E N. unfold propagator_files_at in E. apply obind_ret in E. destruct E as (v0 & E0 & E). apply obind_ret in E. destruct E as (l & E1 & E). injection E as <-.
  apply omap_ret in E1. destruct E1 as [L _]. cbn [length]. rewrite L. destruct (cfg_temps c); [congruence|reflexivity].
Qed.

(** The tables of two alike configurations agree where the data agrees. *)
Lemma tables_patch c c' files files' i j fs fs' f f' : alike c c' -> cfg_temps c <> [] -> compute_propagators P0 P c = Ret files -> compute_propagators P0 P c' = Ret files' ->
  nth_error files i = Some fs -> nth_error files' i = Some fs' -> nth_error fs j = Some f -> nth_error fs' j = Some f' ->
  of_mu f' = of_mu f /\ of_t f' = of_t f /\ (maybe_corrected_data c (of_mu f) (of_t f) = maybe_corrected_data c' (of_mu f) (of_t f) -> f' = f).
Proof.
  intros A N E E' H H' F F'. unfold compute_propagators in E, E'.
  assert (L : exists mu, nth_error (cfg_chempots c) i = Some mu).
  { destruct (nth_error (cfg_chempots c) i) eqn:Z; eauto. apply nth_error_None in Z. apply omap_ret in E. destruct E as [L _]. assert (i < length files)%nat by (apply nth_error_Some; congruence). lia. }
  destruct L as [mu M]. destruct (omap_nth _ _ _ _ _ E M) as (y & Y & G). rewrite H in Y. injection Y as <-.
  pose proof A as (A1 & A2 & A3 & A4 & A5 & A6 & A7 & A8). pose proof M as M'. rewrite A6 in M'. destruct (omap_nth _ _ _ _ _ E' M') as (y & Y & G'). rewrite H' in Y. injection Y as <-.
  assert (T : exists t, nth_error (cfg_temps c) j = Some t).
  { destruct (nth_error (cfg_temps c) j) eqn:Z; eauto. apply nth_error_None in Z. pose proof (files_length c mu fs G N). assert (j < length fs)%nat by (apply nth_error_Some; congruence). lia. }
  destruct T as [t T]. pose proof T as T'. rewrite A5 in T'. destruct (file_label c mu fs j t f G T F) as [U V]. destruct (file_label c' mu fs' j t f' G' T' F') as [U' V'].
  split; [congruence|]. split; [congruence|]. rewrite U, V. intros D. destruct (files_patch c c' mu fs fs' j t A G G' T D) as (x & X & X'). congruence.
Qed.

(** The critical temperatures of two alike configurations. *)
Lemma diagram_nth c pb d2 i mu tc : compute_phase_diagram P0 P c = Ret (pb, d2) -> nth_error pb i = Some (mu, tc) ->
  nth_error (cfg_chempots c) i = Some mu /\ exists vals, ir_values P0 P c mu = Ret vals /\ find_critical_temperature (cfg_temps c) vals = Ret tc.
Proof.
  intros E H. unfold compute_phase_diagram in E. apply obind_ret in E. destruct E as (tcs & E & E'). apply obind_ret in E'. destruct E' as (x & _ & E'). injection E' as <- _.
  assert (Z : nth_error (cfg_chempots c) i = Some mu /\ nth_error tcs i = Some tc) by (clear - H; revert i tcs H; induction (cfg_chempots c) as [|a l IH]; intros [|i] [|b tcs] H; cbn [combine nth_error] in *; try discriminate; [injection H as -> ->; auto|now apply IH]).
  destruct Z as [Z1 Z2]. split; auto. unfold critical_temperatures in E. destruct (omap_nth _ _ _ _ _ E Z1) as (y & Y & G). rewrite Z2 in Y. injection Y as <-. apply obind_ret in G. exact G.
Qed.
Lemma diagram_patch c c' pb d2 pb' d2' i mu tc mu' tc' : alike c c' -> cfg_temps c <> [] -> compute_phase_diagram P0 P c = Ret (pb, d2) -> compute_phase_diagram P0 P c' = Ret (pb', d2') ->
  nth_error pb i = Some (mu, tc) -> nth_error pb' i = Some (mu', tc') ->
  mu' = mu /\ ((forall t, maybe_corrected_data c mu t = maybe_corrected_data c' mu t) -> tc' = tc).
Proof.
  intros A N E E' H H'. destruct (diagram_nth _ _ _ _ _ _ E H) as (M & vals & V & T). destruct (diagram_nth _ _ _ _ _ _ E' H') as (M' & vals' & V' & T').
  pose proof A as (A1 & A2 & A3 & A4 & A5 & A6 & A7 & A8). rewrite A6 in M. rewrite M in M'. injection M' as <-. split; auto. intros D.
  assert (X : vals = vals'). { apply nth_ext'. intros j. destruct (nth_error (cfg_temps c) j) as [t|] eqn:Z.
    - destruct (ir_patch c c' mu vals vals' j t A V V' Z (D _)) as (v & -> & ->). reflexivity.
    - apply nth_error_None in Z. pose proof (ir_length c mu vals V N). rewrite A5 in N. pose proof (ir_length c' mu vals' V' N). rewrite (proj2 (nth_error_None vals j)), (proj2 (nth_error_None vals' j)); auto; [rewrite H1, <- A5; lia|lia]. }
  subst vals'. rewrite A5 in T. congruence.
Qed.
End Patch.

Lemma argmax_later ts vals vals' tc tc' : (forall i j a b, (i <= j)%nat -> nth_error ts i = Some a -> nth_error ts j = Some b -> a <= b) ->
  length vals = length ts -> length vals' = length ts ->
  first_argmax ts vals tc -> first_argmax ts vals' tc' ->
  (forall j t, nth_error ts j = Some t -> t <= tc -> nth_error vals j = nth_error vals' j) -> tc <= tc'.
Proof.
  intros S L L' (i & d & T & D & M & F) (i' & d' & T' & D' & M' & F') A.
  destruct (le_lt_dec i i') as [Le|Lt]; [exact (S i i' tc tc' Le T T')|].
  exfalso. assert (X : d' < d). { apply (F i' tc' d'); auto. rewrite (A i' tc' T'); auto. apply (S i' i tc' tc); auto. lia. }
  assert (Y : d <= d'). { apply (M' i tc d T). rewrite <- (A i tc T); auto. lra. } lra.
Qed.
