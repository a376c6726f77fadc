(** * The critical temperature from binary64 propagators *)
From Coq Require Import ZArith Reals Psatz Lia List Bool.
From Flocq Require Import Core IEEE754.BinarySingleNaN IEEE754.Binary IEEE754.Bits.
From Verif Require Import MFloat MGrid MUtils MTc SpecGrid SpecTc SpecCrit64 PGrid PTc PTc64b.
Import List ListNotations.
Open Scope R_scope.

Lemma val_range x : Rabs (val x) < bpow radix2 1024.
Proof. apply abs_B2R_lt_emax. Qed.
Lemma nan_false x : ~ not_a_number x -> is_nan 53 1024 x = false.
Proof. unfold not_a_number. destruct (is_nan 53 1024 x); [intros H; now elim H|auto]. Qed.
Lemma fin_cases (x : binary64) : not_a_number x \/ (fin x /\ position x = val x) \/ (x = B754_infinity 53 1024 true) \/ (x = B754_infinity 53 1024 false).
Proof. destruct x as [s|s|s pl e|s m e H]; [right; left|right; right; destruct s|left|right; left]; auto; try (split; reflexivity); reflexivity. Qed.
Lemma gt_position x y : ~ not_a_number x -> ~ not_a_number y -> f64_gt x y = true /\ position y < position x \/ f64_gt x y = false /\ position x <= position y.
Proof.
  intros Nx Ny. pose proof (bpow_gt_0 radix2 1024) as P.
  destruct (fin_cases x) as [H|[(Fx & Vx)|Ix]]; [now elim Nx| |]; (destruct (fin_cases y) as [H|[(Fy & Vy)|Iy]]; [now elim Ny| |]).
  - rewrite Vx, Vy, (gt_dec64 x y Fx Fy). destruct (Rlt_dec (val y) (val x)); [left|right]; split; auto; lra.
  - rewrite Vx. pose proof (Rabs_lt_inv _ _ (val_range x)) as B. destruct Iy as [->| ->]; cbn [position]; [left|right]; (split; [destruct x as [s|s|s pl e|s m e H]; try discriminate Fx; reflexivity|lra]).
  - rewrite Vy. pose proof (Rabs_lt_inv _ _ (val_range y)) as B. destruct Ix as [->| ->]; cbn [position]; [right|left]; (split; [destruct y as [s|s|s pl e|s m e H]; try discriminate Fy; try (destruct s); reflexivity|lra]).
  - destruct Ix as [->| ->], Iy as [->| ->]; cbn [position]; [right|right|left|right]; (split; [reflexivity|lra]).
Qed.
Lemma gt_nan_l x y : not_a_number x -> f64_gt x y = false.
Proof. destruct x, y; intros H; try discriminate H; reflexivity. Qed.
Lemma gt_nan_r x y : not_a_number y -> f64_gt x y = false.
Proof. destruct x as [s|[]|s pl e|s m e Hx], y; intros H; try discriminate H; reflexivity. Qed.
Lemma nan_dec x : not_a_number x \/ ~ not_a_number x.
Proof. unfold not_a_number. destruct (is_nan 53 1024 x); [left|right]; auto. Qed.

Definition best {T} (l : list (T * binary64)) (t : T) := exists i d, nth_error l i = Some (t, d) /\ ~ not_a_number d /\
  (forall j tj dj, nth_error l j = Some (tj, dj) -> not_a_number dj \/ position dj <= position d) /\
  (forall j tj dj, (j < i)%nat -> nth_error l j = Some (tj, dj) -> not_a_number dj \/ position dj < position d).
Lemma pair_some {T} (a b : T) (x y : binary64) : Some (a, x) = Some (b, y) -> a = b /\ x = y.
Proof. intros H. split; [exact (f_equal (fun o => match o with Some p => fst p | None => a end) H)|exact (f_equal (fun o => match o with Some p => snd p | None => x end) H)]. Qed.
Lemma loop_best {T} (l : list (T * binary64)) : forall tc dc, ~ not_a_number dc -> best ((tc, dc) :: l) (fct_loop f64_gt l tc dc).
Proof.
  induction l as [|(t, d) l IH]; intros tc dc N; cbn [fct_loop].
  - exists 0%nat, dc. split; [reflexivity|]. split; [exact N|]. split.
    + intros [|j] tj dj H; [apply pair_some in H as (_ & <-); right; lra|destruct j; discriminate H].
    + intros j tj dj H. lia.
  - destruct (f64_gt d dc) eqn:G.
    + assert (Nd : ~ not_a_number d). { intros H. rewrite (gt_nan_l d dc H) in G. discriminate G. }
      destruct (gt_position d dc Nd N) as [(_ & L)|(G' & _)]; [|congruence].
      destruct (IH t d Nd) as (i & e & E & Ne & A & B). exists (S i), e. split; [exact E|]. split; [exact Ne|].
      assert (Q : position d <= position e). { destruct (A 0%nat t d eq_refl) as [H|H]; [now elim Nd|exact H]. }
      split; intros [|j] tj dj.
      * intros H. apply pair_some in H as (_ & <-). right. lra.
      * exact (A j tj dj).
      * intros _ H. apply pair_some in H as (_ & <-). right. lra.
      * intros H. apply (B j tj dj). lia.
    + assert (K : not_a_number d \/ position d <= position dc).
      { destruct (nan_dec d) as [H|H]; [now left|right]. destruct (gt_position d dc H N) as [(G' & _)|(_ & L)]; [congruence|exact L]. }
      destruct (IH tc dc N) as (i & e & E & Ne & A & B).
      assert (Q : position dc <= position e). { destruct (A 0%nat tc dc eq_refl) as [H|H]; [now elim N|exact H]. }
      assert (A' : forall j tj dj, nth_error ((tc, dc) :: (t, d) :: l) j = Some (tj, dj) -> not_a_number dj \/ position dj <= position e).
      { intros [|[|j]] tj dj H.
        - exact (A 0%nat tj dj H).
        - apply pair_some in H as (_ & <-). destruct K; [now left|right; lra].
        - exact (A (S j) tj dj H). }
      destruct i as [|i].
      * exists 0%nat, e. split; [exact E|]. split; [exact Ne|]. split; [exact A'|]. intros j tj dj H. lia.
      * exists (S (S i)), e. split; [exact E|]. split; [exact Ne|]. split; [exact A'|].
        assert (Q' : position dc < position e). { destruct (B 0%nat tc dc ltac:(lia) eq_refl) as [H|H]; [now elim N|exact H]. }
        intros [|[|j]] tj dj L H.
        -- exact (B 0%nat tj dj ltac:(lia) H).
        -- apply pair_some in H as (_ & <-). destruct K; [now left|right; lra].
        -- exact (B (S j) tj dj ltac:(lia) H).
Qed.
Lemma nth_combine {T} (ts : list T) (ds : list binary64) i t d : nth_error (combine ts ds) i = Some (t, d) <-> nth_error ts i = Some t /\ nth_error ds i = Some d.
Proof.
  revert ds i. induction ts as [|a ts IH]; intros [|b ds] [|i]; cbn [combine nth_error]; try (split; [intros H; discriminate H|intros (H1 & H2); (discriminate H1 || discriminate H2)]).
  - split; [intros H; apply pair_some in H as (<- & <-); auto|intros (H1 & H2)]. assert (a = t) by exact (f_equal (fun o => match o with Some v => v | None => a end) H1). assert (b = d) by exact (f_equal (fun o => match o with Some v => v | None => b end) H2). subst. reflexivity.
  - apply IH.
Qed.
Lemma fct_largest {T} (ts : list T) d0 ds : ts <> [] -> ~ not_a_number d0 ->
  exists t, find_critical_temperature_gen f64_gt ts (d0 :: ds) = Ret t /\ at_first_largest ts (d0 :: ds) t.
Proof.
  intros Ht N. destruct ts as [|t0 ts]; [congruence|]. eexists. split; [reflexivity|]. cbn [combine skipn].
  destruct (loop_best (combine ts ds) t0 d0 N) as (i & d & E & Nd & A & B). exists i, d.
  change ((t0, d0) :: combine ts ds) with (combine (t0 :: ts) (d0 :: ds)) in *. apply nth_combine in E as (E1 & E2). split; [exact E1|]. split; [exact E2|]. split; [exact Nd|]. split.
  - intros j tj dj H1 H2. apply (A j tj dj), nth_combine; auto.
  - intros j tj dj L H1 H2. apply (B j tj dj L), nth_combine; auto.
Qed.
Lemma some_inj (x y : binary64) : Some x = Some y -> x = y.
Proof. intros H. exact (f_equal (fun o => match o with Some v => v | None => x end) H). Qed.
Lemma largest_unique {T} (ts : list T) ds t t' : at_first_largest ts ds t -> at_first_largest ts ds t' -> t = t'.
Proof.
  intros (i & d & E1 & E2 & N & A & B) (i' & d' & E1' & E2' & N' & A' & B').
  destruct (Nat.lt_trichotomy i i') as [L|[->|L]]; [|congruence|].
  - destruct (B' _ _ _ L E1 E2) as [H|H]; [now elim N|]. destruct (A _ _ _ E1' E2') as [H'|H']; [now elim N'|lra].
  - destruct (B _ _ _ L E1' E2') as [H|H]; [now elim N'|]. destruct (A' _ _ _ E1 E2) as [H'|H']; [now elim N|lra].
Qed.
Lemma fct_largest_iff {T} (ts : list T) d0 ds t : ts <> [] -> ~ not_a_number d0 ->
  (find_critical_temperature_gen f64_gt ts (d0 :: ds) = Ret t <-> at_first_largest ts (d0 :: ds) t).
Proof.
  intros Ht N. destruct (fct_largest ts d0 ds Ht N) as (r & E & H). rewrite E. split; intros Q.
  - assert (r = t) by exact (f_equal (fun o => match o with Ret v => v | Panic => r end) Q). subst. exact H.
  - f_equal. exact (largest_unique _ _ _ _ H Q).
Qed.
(** no NaN, no infinity: the same index as exact arithmetic *)
Lemma loop_exact (l : list (R * binary64)) : forall tc dc, fin dc -> Forall (fun x => fin (snd x)) l ->
  fct_loop f64_gt l tc dc = fct_loop Rgtb (map (fun x => (fst x, val (snd x))) l) tc (val dc).
Proof.
  induction l as [|(t, d) l IH]; intros tc dc F H; cbn [fct_loop map fst snd]; [reflexivity|].
  apply Forall_cons_iff in H as (Fd & Hl). cbn [snd] in Fd. rewrite (gt_dec64 d dc Fd F). unfold Rgtb at 1. destruct (Rlt_dec (val dc) (val d)); apply IH; auto.
Qed.
Lemma combine_val (ts : list R) (ds : list binary64) : map (fun x => (fst x, val (snd x))) (combine ts ds) = combine ts (map val ds).
Proof. revert ds. induction ts as [|t ts IH]; intros [|d ds]; cbn [combine map fst snd]; try reflexivity. f_equal. apply IH. Qed.
Lemma combine_fin (ts : list R) (ds : list binary64) : Forall fin ds -> Forall (fun x => fin (snd x)) (combine ts ds).
Proof. intros H. apply Forall_forall. intros (t, d) I. apply in_combine_r in I. rewrite Forall_forall in H. exact (H d I). Qed.
Lemma fct_exact (ts : list R) (ds : list binary64) : Forall fin ds -> find_critical_temperature_gen f64_gt ts ds = find_critical_temperature ts (map val ds).
Proof.
  intros H. destruct ts as [|t0 ts]; [reflexivity|]. destruct ds as [|d0 ds]; [reflexivity|]. apply Forall_cons_iff in H as (F & H).
  unfold find_critical_temperature, find_critical_temperature_gen. cbn [map combine skipn]. f_equal. rewrite <- combine_val. apply loop_exact; [exact F|]. apply combine_fin, H.
Qed.
Definition f64_inf : F64 := B754_infinity 53 1024 false.
Definition ex_crit : list F64 := [f64_lit 1 1; f64_nan; f64_inf; f64_lit 5 1; f64_inf].
Lemma ex_crit_ok : find_critical_temperature_gen f64_gt [10; 20; 30; 40; 50] ex_crit = Ret 30 /\ ~ not_a_number (f64_lit 1 1) /\ not_a_number f64_nan /\
  find_critical_temperature_gen f64_gt [10; 20; 30] [f64_nan; f64_inf; f64_lit 5 1] = Ret 10.
Proof.
  assert (G : f64_gt f64_nan (f64_lit 1 1) = false /\ f64_gt f64_inf (f64_lit 1 1) = true /\ f64_gt (f64_lit 5 1) f64_inf = false /\ f64_gt f64_inf f64_inf = false /\ f64_gt f64_inf f64_nan = false /\ f64_gt (f64_lit 5 1) f64_nan = false) by (vm_compute; repeat split; reflexivity).
  destruct G as (G1 & G2 & G3 & G4 & G5 & G6). split; [|split; [|split]].
  - unfold find_critical_temperature_gen, ex_crit. cbn [combine skipn fct_loop]. now rewrite G1, G2, G3, G4.
  - unfold not_a_number. vm_compute. discriminate.
  - vm_compute. reflexivity.
  - unfold find_critical_temperature_gen. cbn [combine skipn fct_loop]. now rewrite G5, G6.
Qed.
