(** * Proofs about tc_long_prop *)
From Coq Require Import Reals List Sorted Bool ZArith Psatz Lia.
From Verif Require Import Num MVacuum MUtils MTc SpecConsts SpecTc.
Import ListNotations.
Open Scope R_scope.

(** ** find_critical_temperature *)
Lemma Rgtb_true x y : Rgtb x y = true <-> y < x.
Proof. unfold Rgtb. destruct (Rlt_dec y x); split; intros; auto; discriminate. Qed.
Lemma Rgtb_false x y : Rgtb x y = false <-> x <= y.
Proof. unfold Rgtb. destruct (Rlt_dec y x); split; intros; auto; try discriminate; lra. Qed.

Definition argmax_pairs (l : list (R * R)) (t : R) : Prop :=
  exists i d, nth_error l i = Some (t, d) /\
    (forall j tj dj, nth_error l j = Some (tj, dj) -> dj <= d) /\
    (forall j tj dj, (j < i)%nat -> nth_error l j = Some (tj, dj) -> dj < d).

Lemma fct_loop_argmax l : forall t0 d0, argmax_pairs ((t0, d0) :: l) (fct_loop Rgtb l t0 d0).
Proof.
  induction l as [|[t d] l IH]; intros t0 d0; simpl.
  - exists 0%nat, d0. simpl. split; auto. split.
    + intros [|j] tj dj; simpl; [|destruct j; discriminate]. intros E. injection E as <- <-. lra.
    + intros; lia.
  - destruct (Rgtb d d0) eqn:E.
    + apply Rgtb_true in E. destruct (IH t d) as (i & dm & Hi & Hmax & Hfst).
      pose proof (Hmax 0%nat t d eq_refl) as Hd.
      exists (S i), dm. split; [exact Hi|]. split.
      * intros [|j] tj dj Hj; [|eapply Hmax; exact Hj]. injection Hj as <- <-. lra.
      * intros [|j] tj dj Hlt Hj; [injection Hj as <- <-; lra|]. eapply (Hfst j); [lia|exact Hj].
    + apply Rgtb_false in E. destruct (IH t0 d0) as (i & dm & Hi & Hmax & Hfst).
      pose proof (Hmax 0%nat t0 d0 eq_refl) as Hd.
      destruct i as [|i].
      * exists 0%nat, dm. split; [exact Hi|]. split; [|intros; lia].
        intros [|[|j]] tj dj Hj; simpl in Hj.
        -- apply (Hmax 0%nat tj dj Hj).
        -- injection Hj as <- <-. lra.
        -- apply (Hmax (S j) tj dj Hj).
      * pose proof (Hfst 0%nat t0 d0 ltac:(lia) eq_refl) as H0.
        exists (S (S i)), dm. split; [exact Hi|]. split.
        -- intros [|[|j]] tj dj Hj; simpl in Hj.
           ++ apply (Hmax 0%nat tj dj Hj).
           ++ injection Hj as <- <-. lra.
           ++ apply (Hmax (S j) tj dj Hj).
        -- intros [|[|j]] tj dj Hlt Hj; simpl in Hj.
           ++ injection Hj as <- <-. lra.
           ++ injection Hj as <- <-. lra.
           ++ apply (Hfst (S j) tj dj ltac:(lia) Hj).
Qed.

Lemma nth_combine (ts ds : list R) i t d :
  nth_error (combine ts ds) i = Some (t, d) <-> nth_error ts i = Some t /\ nth_error ds i = Some d.
Proof.
  revert ds i. induction ts as [|x ts IH]; intros ds i; simpl.
  - destruct i; simpl; split; [discriminate| intros []; discriminate | discriminate | intros []; discriminate].
  - destruct ds as [|y ds]; destruct i; simpl.
    + split; [discriminate|intros []; discriminate].
    + split; [discriminate|intros []; discriminate].
    + split; [intros E; injection E as <- <-; auto | intros [E1 E2]; congruence].
    + apply IH.
Qed.

Lemma fct_correct ts ds : ts <> [] -> ds <> [] ->
  exists t, find_critical_temperature ts ds = Ret t /\ first_argmax ts ds t.
Proof.
  destruct ts as [|t0 ts]; [congruence|]. destruct ds as [|d0 ds]; [congruence|]. intros _ _.
  eexists. split; [reflexivity|]. simpl.
  destruct (fct_loop_argmax (combine ts ds) t0 d0) as (i & d & Hi & Hm & Hf).
  change ((t0, d0) :: combine ts ds) with (combine (t0 :: ts) (d0 :: ds)) in *.
  apply nth_combine in Hi as [Hi1 Hi2].
  exists i, d. split; auto. split; auto. split.
  - intros j tj dj H1 H2. apply (Hm j tj dj). now apply nth_combine.
  - intros j tj dj Hlt H1 H2. apply (Hf j tj dj Hlt). now apply nth_combine.
Qed.

Lemma fct_panic {T D} (gt : D -> D -> bool) ts ds :
  find_critical_temperature_gen (T := T) gt ts ds = Panic <-> ts = [] \/ ds = [].
Proof.
  unfold find_critical_temperature_gen.
  destruct ts; [tauto|]. destruct ds; [tauto|]. split; [discriminate|]. intros [|]; discriminate.
Qed.

Lemma fct_stuck {T D} (gt : D -> D -> bool) (d0 : D) : (forall d, gt d d0 = false) ->
  forall (t0 : T) ts ds, find_critical_temperature_gen gt (t0 :: ts) (d0 :: ds) = Ret t0.
Proof.
  intros H t0 ts ds. simpl. f_equal. generalize (combine ts ds). intros l.
  induction l as [|[t d] l IH]; simpl; auto. now rewrite H.
Qed.

(** ** reduce_phase_boundary *)
Lemma reduce_cut full : cut_at_zero full (reduce_phase_boundary full).
Proof.
  induction full as [|[mu t] full IH]; simpl.
  - exists []. repeat split; auto.
  - destruct (Req_EM_T t 0) as [->|N].
    + exists ((mu, 0) :: full). repeat split; auto. right. eauto.
    + destruct IH as (rest & E & F & Z). exists rest. split; [simpl; congruence|]. split; auto.
Qed.

Lemma cut_unique full pb : cut_at_zero full pb -> reduce_phase_boundary full = pb.
Proof.
  intros (rest & -> & F & Z). induction F as [|[mu t] pb Ht F IH]; simpl.
  - destruct Z as [->|(mu & rest' & ->)]; simpl; auto. destruct (Req_EM_T 0 0); congruence.
  - destruct (Req_EM_T t 0); [contradiction|]. now rewrite IH.
Qed.

Lemma cut_self full pb : cut_at_zero full pb -> cut_at_zero pb pb.
Proof. intros (rest & -> & F & Z). exists []. rewrite app_nil_r. auto. Qed.

Lemma reduce_idem full : reduce_phase_boundary (reduce_phase_boundary full) = reduce_phase_boundary full.
Proof. apply cut_unique. eapply cut_self. apply reduce_cut. Qed.

(** ** is_deconfined_phase *)
Definition boolR (b : bool) (P : Prop) : Prop := b = true <-> P.

Lemma scan_no_panic mu t p pb : scan_boundary mu t (Some p) pb <> Panic.
Proof.
  revert p. induction pb as [|[m tb] pb IH]; intros p; simpl; [discriminate|].
  destruct (Req_EM_T m mu); [discriminate|]. destruct (Req_EM_T tb t); [discriminate|].
  destruct (Rlt_dec mu m); [destruct p; discriminate|]. apply IH.
Qed.

Lemma deconf_panic mu t full :
  is_deconfined_phase mu t full = Panic <->
  (reduce_phase_boundary full = [] \/ exists m0 t0 pb, reduce_phase_boundary full = (m0, t0) :: pb /\ mu < m0).
Proof.
  unfold is_deconfined_phase. destruct (reduce_phase_boundary full) as [|[m0 t0] pb] eqn:E.
  - split; auto.
  - assert (S : ~ mu < m0 -> scan_boundary mu t None ((m0, t0) :: pb) <> Panic).
    { intros N. simpl. destruct (Req_EM_T m0 mu); [discriminate|]. destruct (Req_EM_T t0 t); [discriminate|].
      destruct (Rlt_dec mu m0); [contradiction|]. apply scan_no_panic. }
    destruct (Rlt_dec mu m0) as [L|L].
    + split; auto. intros _. right. eauto.
    + split.
      * destruct (Req_EM_T t 0); [discriminate|].
        destruct (Req_EM_T mu 0); [destruct (Req_EM_T m0 0); [discriminate|]|]; intros H; now apply S in H.
      * intros [|(m & t' & pb' & Eq & Hlt)]; [discriminate|]. injection Eq as -> -> ->. contradiction.
Qed.

Lemma falling_inv x pb : falling (x :: pb) -> falling pb /\ Forall (fun y => fst x < fst y /\ snd y < snd x) pb.
Proof. intros H. inversion H; auto. Qed.

Lemma polygon_cons x pb mu tc : on_polygon pb mu tc -> on_polygon (x :: pb) mu tc.
Proof.
  intros [H|(l1 & m0 & t0 & m1 & t1 & l2 & -> & H)]; [left; right; auto|].
  right. exists (x :: l1), m0, t0, m1, t1, l2. auto.
Qed.

(** On a falling table, tc is pinned between neighbours. *)
Lemma poly_below m0 t0 m1 t1 mu tc : m0 < m1 -> t1 < t0 -> m0 < mu < m1 ->
  (tc - t0) * (m1 - m0) = (t1 - t0) * (mu - m0) -> t1 < tc < t0.
Proof. intros. split; nra. Qed.

Lemma polygon_le_head m0 t0 pb mu tc : falling ((m0, t0) :: pb) -> on_polygon ((m0, t0) :: pb) mu tc ->
  m0 <= mu /\ tc <= t0 /\ (m0 < mu -> tc < t0).
Proof.
  intros F. revert m0 t0 F. induction pb as [|[m1 t1] pb IH]; intros m0 t0 F H.
  - destruct H as [[E|[]]|(l1 & a & b & c & d & l2 & E & _)].
    + injection E as -> ->. repeat split; lra.
    + destruct l1 as [|? [|? ?]]; discriminate.
  - destruct (falling_inv _ _ F) as [F1 A]. inversion A as [|? ? [A1 A2] A']; subst. simpl in A1, A2.
    destruct H as [[E|H]|(l1 & a & b & c & d & l2 & E & Hm & Hl)].
    + injection E as -> ->. repeat split; lra.
    + destruct (IH m1 t1 F1) as (B1 & B2 & B3); [left; auto|]. repeat split; lra.
    + destruct l1 as [|x l1].
      * injection E as -> -> -> -> ->. pose proof (poly_below _ _ _ _ _ _ A1 A2 Hm Hl). repeat split; lra.
      * injection E as <- E. destruct (IH m1 t1 F1) as (B1 & B2 & B3).
        { right. exists l1, a, b, c, d, l2. auto. }
        repeat split; lra.
Qed.

Lemma in_falling_ge (m0 t0 : R) pb mu tc : falling ((m0,t0)::pb) -> on_polygon pb mu tc -> m0 < mu /\ tc < t0.
Proof.
  intros F H. destruct pb as [|[m1 t1] pb].
  - destruct H as [[]|(l1 & a & b & c & d & l2 & E & _)]. destruct l1; discriminate.
  - destruct (falling_inv _ _ F) as [F1 A]. inversion A as [|? ? [A1 A2] A']; subst. simpl in *.
    destruct (polygon_le_head _ _ _ _ _ F1 H) as (B1 & B2 & B3). lra.
Qed.

(** The scan after the first point [(m0,t0)] with m0 < mu decides [tc < t]. *)
Lemma scan_correct mu t pb : forall m0 t0 tc, falling ((m0, t0) :: pb) -> m0 < mu -> t <> t0 ->
  on_polygon ((m0, t0) :: pb) mu tc ->
  exists b, scan_boundary mu t (Some (m0, t0)) pb = Ret b /\ boolR b (tc < t).
Proof.
  induction pb as [|[m1 t1] pb IH]; intros m0 t0 tc F Hm Ht H.
  - destruct H as [[E|[]]|(l1 & a & b & c & d & l2 & E & _)].
    + injection E as -> ->. lra.
    + destruct l1 as [|? [|? ?]]; discriminate.
  - destruct (falling_inv _ _ F) as [F1 A]. inversion A as [|? ? [A1 A2] A']; subst. simpl in A1, A2.
    (* split the polygon: either on segment (m0,m1), or on the rest *)
    assert (D : (m0 < mu < m1 /\ (tc - t0) * (m1 - m0) = (t1 - t0) * (mu - m0)) \/ on_polygon ((m1, t1) :: pb) mu tc).
    { destruct H as [[E|H]|(l1 & a & b & c & d & l2 & E & Hs & Hl)].
      - injection E as -> ->. lra.
      - right. left. auto.
      - destruct l1 as [|x l1].
        + injection E as -> -> -> -> ->. left. auto.
        + injection E as <- E. right. right. exists l1, a, b, c, d, l2. auto. }
    simpl. destruct (Req_EM_T m1 mu) as [->|Nm].
    + eexists. split; [reflexivity|].
      assert (tc = t1).
      { destruct D as [[D _]|D]; [lra|]. destruct D as [[E|D]|(l1 & a & b & c & d & l2 & E & Hs & Hl)].
        - now injection E as ->.
        - destruct (in_falling_ge _ _ _ _ _ F1 (or_introl D)). lra.
        - destruct l1 as [|x l1].
          + injection E as -> -> ->. lra.
          + injection E as <- E. destruct (in_falling_ge _ _ pb mu tc F1); [|lra].
            right. exists l1, a, b, c, d, l2. auto. }
      subst. unfold boolR. destruct (Rlt_dec t1 t); split; auto; try discriminate; lra.
    + destruct (Req_EM_T t1 t) as [->|Nt].
      * eexists. split; [reflexivity|]. unfold boolR.
        destruct D as [[D L]|D].
        -- pose proof (poly_below _ _ _ _ _ _ A1 A2 D L). destruct (Rlt_dec m1 mu); split; auto; try discriminate; lra.
        -- destruct (polygon_le_head _ _ _ _ _ F1 D) as (B1 & B2 & B3).
           destruct (Rlt_dec m1 mu); split; auto; try discriminate; lra.
      * destruct (Rlt_dec mu m1) as [L|L].
        -- eexists. split; [reflexivity|].
           destruct D as [[D Hl]|D]; [|destruct (polygon_le_head _ _ _ _ _ F1 D); lra].
           assert (E : tc = t0 + (t1 - t0) / (m1 - m0) * (mu - m0)).
           { apply (Rmult_eq_reg_r (m1 - m0)); [|lra].
             replace ((t0 + (t1 - t0) / (m1 - m0) * (mu - m0)) * (m1 - m0))
               with (t0 * (m1 - m0) + (t1 - t0) * (mu - m0)) by (field; lra). lra. }
           rewrite <- E. unfold boolR. destruct (Rlt_dec tc t); split; auto; try discriminate; lra.
        -- destruct D as [[D _]|D]; [lra|]. apply IH; auto. lra.
Qed.

Lemma scan_first mu t m0 t0 pb tc : falling ((m0, t0) :: pb) ->
  on_polygon ((m0, t0) :: pb) mu tc ->
  exists b, scan_boundary mu t None ((m0, t0) :: pb) = Ret b /\ boolR b (tc < t).
Proof.
  intros F H. destruct (polygon_le_head _ _ _ _ _ F H) as (B1 & B2 & B3).
  cbn [scan_boundary]. destruct (Req_EM_T m0 mu) as [->|Nm].
  - eexists. split; [reflexivity|].
    assert (tc = t0).
    { destruct H as [[E|H]|(l1 & a & b & c & d & l2 & E & Hs & Hl)].
      - now injection E.
      - destruct (in_falling_ge _ _ _ _ _ F (or_introl H)). lra.
      - destruct l1 as [|x l1].
        + injection E as -> -> ->. lra.
        + injection E as <- E. destruct (in_falling_ge _ _ pb mu tc F); [|lra].
          right. exists l1, a, b, c, d, l2. auto. }
    subst. unfold boolR. destruct (Rlt_dec t0 t); split; auto; try discriminate; lra.
  - destruct (Req_EM_T t0 t) as [->|Nt].
    + eexists. split; [reflexivity|]. unfold boolR.
      destruct (Rlt_dec m0 mu); split; auto; try discriminate; lra.
    + destruct (Rlt_dec mu m0); [lra|]. apply scan_correct; auto. lra.
Qed.

Lemma deconf_correct full pb mu t tc : cut_at_zero full pb -> falling pb -> t <> 0 ->
  on_polygon pb mu tc ->
  exists b, is_deconfined_phase mu t full = Ret b /\ (b = true <-> tc < t).
Proof.
  intros Hc F Ht H. unfold is_deconfined_phase. rewrite (cut_unique _ _ Hc).
  destruct pb as [|[m0 t0] pb].
  { destruct H as [[]|(l1 & a & b & c & d & l2 & E & _)]. destruct l1; discriminate. }
  destruct (polygon_le_head _ _ _ _ _ F H) as (B1 & B2 & B3).
  destruct (Rlt_dec mu m0); [lra|]. destruct (Req_EM_T t 0); [contradiction|].
  destruct (Req_EM_T mu 0) as [->|]; [|now apply scan_first].
  destruct (Req_EM_T m0 0) as [->|]; [|now apply scan_first].
  destruct (scan_first 0 t 0 t0 pb tc F H) as (b & E & Hb).
  simpl in E. destruct (Req_EM_T 0 0); [|congruence]. exists b. auto.
Qed.

Lemma deconf_zero_temp full pb m0 t0 mu : cut_at_zero full ((m0, t0) :: pb) -> m0 <= mu ->
  exists b, is_deconfined_phase mu 0 full = Ret b /\ (b = true <-> fst (last ((m0, t0) :: pb) (0, 0)) < mu).
Proof.
  intros Hc Hm. unfold is_deconfined_phase. rewrite (cut_unique _ _ Hc).
  destruct (Rlt_dec mu m0); [lra|]. destruct (Req_EM_T 0 0); [|congruence].
  eexists. split; [reflexivity|]. destruct (Rlt_dec _ mu); split; auto; discriminate.
Qed.

Lemma scan_above mu t p pb : (forall x, In x pb -> fst x < mu) -> scan_boundary mu t p pb = Ret true.
Proof.
  revert p. induction pb as [|[m tb] pb IH]; intros p H; simpl; auto.
  pose proof (H (m, tb) (or_introl eq_refl)) as Hm. simpl in Hm.
  destruct (Req_EM_T m mu); [lra|]. destruct (Req_EM_T tb t).
  - destruct (Rlt_dec m mu); auto; lra.
  - destruct (Rlt_dec mu m); [lra|]. apply IH. intros; apply H; right; auto.
Qed.

Lemma deconf_above full pb mu t : cut_at_zero full pb -> pb <> [] -> (forall x, In x pb -> fst x < mu) ->
  is_deconfined_phase mu t full = Ret true \/ (exists m0 t0 l, pb = (m0,t0)::l /\ mu = 0 /\ m0 = 0).
Proof.
  intros Hc Hn H. unfold is_deconfined_phase. rewrite (cut_unique _ _ Hc).
  destruct pb as [|[m0 t0] pb]; [congruence|].
  pose proof (H (m0, t0) (or_introl eq_refl)) as Hm. simpl in Hm.
  destruct (Rlt_dec mu m0); [lra|]. destruct (Req_EM_T t 0).
  - left. destruct (Rlt_dec _ mu) as [|N]; auto. exfalso. apply N. apply H.
    clear. generalize (m0, t0). induction pb as [|x pb IH]; intros y; [left; auto|]. right. apply IH.
  - destruct (Req_EM_T mu 0); [destruct (Req_EM_T m0 0)|]; try (left; now apply scan_above).
    right. eauto 6.
Qed.

Lemma deconf_above' full pb mu t : cut_at_zero full pb -> pb <> [] -> (forall x, In x pb -> fst x < mu) ->
  is_deconfined_phase mu t full = Ret true.
Proof.
  intros Hc Hn H. destruct (deconf_above full pb mu t Hc Hn H) as [|(m0 & t0 & l & -> & -> & ->)]; auto.
  specialize (H (0, t0) (or_introl eq_refl)). simpl in H. lra.
Qed.

Lemma in_nonzero full pb mu t : cut_at_zero full pb -> In (mu, t) pb -> t <> 0.
Proof. intros (rest & _ & F & _) H. rewrite Forall_forall in F. apply (F _ H). Qed.

Lemma boundary_confined full pb mu t : cut_at_zero full pb -> falling pb -> In (mu, t) pb ->
  is_deconfined_phase mu t full = Ret false.
Proof.
  intros Hc F H. destruct (deconf_correct full pb mu t t Hc F) as (b & E & Hb).
  - eapply in_nonzero; eauto.
  - left; auto.
  - rewrite E. destruct b; auto. destruct Hb as [Hb _]. specialize (Hb eq_refl). lra.
Qed.

Lemma ss2 {A} (P : A -> A -> Prop) a b c : P a b -> P a c -> P b c -> StronglySorted P [a; b; c].
Proof. intros. repeat constructor; auto. Qed.

Lemma flat_refuted : exists pb mu t, cut_at_zero pb pb /\ weakly_falling pb /\ In (mu, t) pb /\
  is_deconfined_phase mu t pb = Ret true.
Proof.
  exists [(0, 15/100); (10/100, 15/100); (20/100, 14/100)], (10/100), (15/100).
  assert (Z : cut_at_zero [(0, 15/100); (10/100, 15/100); (20/100, 14/100)] [(0, 15/100); (10/100, 15/100); (20/100, 14/100)]).
  { exists []. split; [reflexivity|]. split; [|auto]. repeat constructor; simpl; lra. }
  split; [exact Z|]. split; [apply ss2; simpl; lra|]. split; [simpl; auto|].
  unfold is_deconfined_phase. rewrite (cut_unique _ _ Z).
  destruct (Rlt_dec _ 0); [lra|]. destruct (Req_EM_T _ 0); [lra|]. destruct (Req_EM_T _ 0); [lra|].
  simpl. destruct (Req_EM_T _ _); [lra|]. destruct (Req_EM_T _ _); [|lra]. destruct (Rlt_dec _ _); auto; lra.
Qed.

(** ** Polynomial *)
Lemma horner_fold mu : forall l, fold_left (fun res p => (res + p) * mu) (rev l) 0 =
  fold_right (fun p acc => (acc + p) * mu) 0 l.
Proof. intros l. rewrite fold_left_rev_right with (f := fun p acc => (acc + p) * mu) || idtac.
  rewrite <- (rev_involutive l) at 2. rewrite fold_left_rev_right. reflexivity. Qed.

Lemma poly_cons p l mu : l <> [] -> poly (p :: l) mu = p + mu * poly l mu.
Proof.
  intros H. unfold poly. destruct l as [|q l]; [congruence|].
  replace (length (p :: q :: l) - 1)%nat with (S (length l)) by (simpl; lia).
  replace (length (q :: l) - 1)%nat with (length l) by (simpl; lia).
  rewrite decomp_sum by lia. simpl nth at 1. rewrite scal_sum. simpl pow at 1. rewrite Rmult_1_r.
  f_equal. replace (Init.Nat.pred (S (length l))) with (length l) by auto. apply sum_eq. intros i _. simpl. ring.
Qed.

Lemma ppd_correct mu params : params <> [] -> parametric_phase_diagram mu params = Ret (poly params mu).
Proof.
  destruct params as [|p0 rest]; [congruence|]. intros _. simpl. f_equal. rewrite horner_fold.
  destruct rest as [|p1 rest].
  - unfold poly. simpl. ring.
  - rewrite poly_cons by discriminate. rewrite Rplus_comm. f_equal.
    revert p1. induction rest as [|p2 rest IH]; intros p1.
    + unfold poly. simpl. ring.
    + cbn [fold_right] in *. rewrite IH. rewrite (poly_cons p1) by discriminate. ring.
Qed.

Lemma ppd_panic mu params : parametric_phase_diagram mu params = Panic <-> params = [].
Proof. destruct params; simpl; split; congruence. Qed.
