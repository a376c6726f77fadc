(** * NaN in the default run of the phase-diagram program *)
From Coq Require Import ZArith Reals Psatz Lia List Bool.
From Flocq Require Import Core IEEE754.BinarySingleNaN IEEE754.Binary IEEE754.Bits.
From Verif Require Import MFloat MGrid MUtils MTc MFermi SpecGrid SpecFermi PGrid PGrid2 PGrid3 PFerm64 PFerm64b.
Import List ListNotations.
Open Scope R_scope.

Definition nan_at (grid : list F64) (mq : F64) : list nat :=
  filter (fun k => zero_temp_wrapper_f64 false f64_isnan mq (nth k grid f64_nan)) (seq 0 (length grid)).
Lemma nan_at_ok grid mq ks : nan_at grid mq = ks -> nan_limits grid mq ks.
Proof.
  intros <- k Hk. unfold nan_at. rewrite filter_In, in_seq. split; [intros H; split; [lia|exact H]|tauto].
Qed.
Lemma default_nan :
  (forall mq, In mq (default_masses_f64 ++ default_corrected_masses_f64) -> nan_limits physical_fewchempots mq []) /\
  nan_limits physical_morechempots (f64_lit 350 1000) [] /\ nan_limits physical_morechempots (f64_lit 450 1000) [18%nat] /\
  nan_limits physical_morechempots (f64_lit 15 10) [] /\ nan_limits physical_morechempots (f64_lit 125 1000) [] /\
  nan_limits physical_morechempots (f64_lit 225 1000) [9%nat] /\ nan_limits physical_morechempots (f64_lit 12 10) [] /\
  nan_limits physical_manychempots (f64_lit 350 1000) [] /\ nan_limits physical_manychempots (f64_lit 450 1000) [45%nat] /\
  nan_limits physical_manychempots (f64_lit 15 10) [] /\ nan_limits physical_manychempots (f64_lit 125 1000) [] /\
  nan_limits physical_manychempots (f64_lit 225 1000) [] /\ nan_limits physical_manychempots (f64_lit 12 10) [].
Proof.
  split. { intros mq H. simpl in H. destruct H as [H|[H|[H|[H|[H|[H|[]]]]]]]; subst; apply nan_at_ok; vm_compute; reflexivity. }
  do 11 (split; [apply nan_at_ok; vm_compute; reflexivity|]). apply nan_at_ok. vm_compute. reflexivity.
Qed.

(** the boundary *)
Lemma bits_inj (x y : F64) : Z.eqb (bits_of_b64 x) (bits_of_b64 y) = true -> x = y.
Proof.
  intros H. apply Z.eqb_eq in H. rewrite <- (binary_float_of_bits_of_binary_float 52 11 eq_refl eq_refl eq_refl x), <- (binary_float_of_bits_of_binary_float 52 11 eq_refl eq_refl eq_refl y).
  unfold bits_of_b64 in H. now rewrite H.
Qed.
Lemma chempot45 : nth 45 physical_manychempots f64_nan = f64_lit 450 1000.
Proof. apply bits_inj. vm_compute. reflexivity. Qed.
Lemma many_len : length physical_manychempots = 81%nat. Proof. destruct physical_manychempots_ok as (L & _). exact L. Qed.
Lemma zero_eq : f64_eq f64_zero f64_zero = true. Proof. vm_compute. reflexivity. Qed.
Lemma temps_first : exists ts, physical_manytemps = f64_zero :: ts /\ fin f64_zero /\ val f64_zero = 0.
Proof.
  exists (tl physical_manytemps). split.
  - assert (E : hd f64_nan physical_manytemps = f64_zero) by (apply bits_inj; vm_compute; reflexivity). rewrite <- E. destruct physical_manytemps_ok as (L & _).
    revert L. generalize physical_manytemps. intros l L. destruct l; [|reflexivity]. exfalso. rewrite <- (Nat2Z.id (length [])) in L. apply Z2Nat.inj in L; simpl in L; lia.
  - apply (of_nat_ok 0). simpl. lia.
Qed.
Lemma wrapper45 {A} (z : A) integ : zero_temp_wrapper_f64 z integ (f64_lit 450 1000) (f64_lit 450 1000) = integ (fermi_momentum_f64 (f64_lit 450 1000) (f64_lit 450 1000)) /\
  f64_isnan (fermi_momentum_f64 (f64_lit 450 1000) (f64_lit 450 1000)) = true.
Proof.
  split; [|vm_compute; reflexivity]. unfold zero_temp_wrapper_f64. assert (E : f64_lt (b64_abs (f64_lit 450 1000)) (b64_abs (f64_lit 450 1000)) = false) by (vm_compute; reflexivity). now rewrite E.
Qed.
Lemma tc45 vac integ warm mg om pbase renpoint quarks nf : nan_to_nan integ -> In (nf, f64_lit 450 1000) quarks ->
  nth_error (critical_temperatures_f64 vac integ warm mg om pbase renpoint quarks physical_manytemps physical_manychempots) 45 = Some (Ret f64_zero).
Proof.
  intros HN Hin. unfold critical_temperatures_f64. assert (E : nth_error physical_manychempots 45 = Some (f64_lit 450 1000)).
  { rewrite <- chempot45. apply nth_error_nth'. rewrite many_len. lia. }
  rewrite (map_nth_error _ _ _ E). f_equal. destruct temps_first as (ts & Et & _). rewrite Et. apply fct_nan_first.
  apply ir_nan with nf (f64_lit 450 1000); auto. destruct (wrapper45 c64_zero (integ (f64_lit 450 1000) (pbase [*] mg) (f64_lit 450 1000))) as (W & N). rewrite W. now apply HN.
Qed.
Lemma reduce_cut pb k mu t : nth_error pb k = Some (mu, t) -> f64_eq t f64_zero = true -> exists j, (j <= k)%nat /\ reduce_phase_boundary_f64 pb = firstn j pb.
Proof.
  revert k. induction pb as [|(mu0 & t0) pb IH]; intros k H E; [destruct k; discriminate|]. simpl. destruct (f64_eq t0 f64_zero) eqn:Q.
  - exists 0%nat. split; [lia|reflexivity].
  - destruct k as [|k]; [simpl in H; inversion H; subst; congruence|]. destruct (IH k H E) as (j & Hj & ->). exists (S j). split; [lia|reflexivity].
Qed.
Lemma boundary45 vac integ warm mg om pbase renpoint quarks nf tcs : nan_to_nan integ -> In (nf, f64_lit 450 1000) quarks ->
  critical_temperatures_f64 vac integ warm mg om pbase renpoint quarks physical_manytemps physical_manychempots = map (@Ret F64) tcs ->
  let pb := reduce_phase_boundary_f64 (combine physical_manychempots tcs) in
  (length pb <= 45)%nat /\ Forall (fun x => val (fst x) < val (f64_lit 450 1000)) pb.
Proof.
  intros HN Hin HT. cbv zeta. pose proof (tc45 vac integ warm mg om pbase renpoint quarks nf HN Hin) as H. rewrite HT in H.
  assert (L : length tcs = 81%nat). { rewrite <- (map_length (@Ret F64)), <- HT. unfold critical_temperatures_f64. now rewrite map_length, many_len. }
  assert (E : nth_error (combine physical_manychempots tcs) 45 = Some (f64_lit 450 1000, f64_zero)).
  { rewrite (nth_error_nth' _ (f64_nan, f64_zero)) by (rewrite combine_length, L, many_len; simpl; lia). f_equal.
    rewrite combine_nth by (rewrite L; exact many_len). f_equal; [exact chempot45|].
    rewrite nth_error_map in H. destruct (nth_error tcs 45) as [t|] eqn:Q; [|discriminate]. simpl in H. inversion H; subst. now apply nth_error_nth. }
  destruct (reduce_cut _ 45 _ _ E zero_eq) as (j & Hj & ->). split.
  - rewrite firstn_length. lia.
  - apply Forall_forall. intros (mu & t) Hx. apply In_nth_error in Hx. destruct Hx as (i & Hi). cbn [fst].
    assert (Hij : (i < j)%nat). { assert (X : (i < length (firstn j (combine physical_manychempots tcs)))%nat). { apply nth_error_Some. intros N. pose proof (eq_trans (eq_sym Hi) N) as Q. discriminate Q. } rewrite firstn_length in X. lia. }
    assert (M : nth i physical_manychempots f64_nan = mu).
    { assert (Hi' : nth_error (combine physical_manychempots tcs) i = Some (mu, t)). { rewrite <- (firstn_skipn j (combine physical_manychempots tcs)). rewrite nth_error_app1; auto. apply nth_error_Some. intros N. pose proof (eq_trans (eq_sym Hi) N) as Q. discriminate Q. }
      apply (nth_error_nth _ _ (f64_nan, f64_zero)) in Hi'. rewrite combine_nth in Hi' by (rewrite L; exact many_len). exact (f_equal fst Hi'). }
    rewrite <- M, <- chempot45. destruct physical_manychempots_ok as (_ & _ & Inc & _).
    assert (G : forall n, (n < 45)%nat -> val (nth n physical_manychempots f64_nan) < val (nth 45 physical_manychempots f64_nan)).
    { intros n Hn. assert (Q : forall d, (d + n <= 45)%nat -> (0 < d)%nat -> val (nth n physical_manychempots f64_nan) < val (nth (d + n) physical_manychempots f64_nan)).
      { induction d as [|d IHd]; intros H1 H2; [lia|]. pose proof (Inc (d + n)%nat f64_nan ltac:(lia)) as X. destruct d as [|d]; [exact X|]. eapply Rlt_trans; [apply IHd; lia|exact X]. }
      specialize (Q (45 - n)%nat). replace (45 - n + n)%nat with 45%nat in Q by lia. apply Q; lia. }
    apply G. lia.
Qed.
(** routines exist *)
Lemma nan_ex : nan_to_nan (fun _ _ _ b => (b, f64_zero)). Proof. intros mu p mq b H. exact H. Qed.
