(** * Proofs about the fit of the phase boundary: least squares *)
From Coq Require Import Reals List Lra Lia Arith Psatz.
From Verif Require Import Num MUtils MTc MPhase MFit SpecTc SpecFit PTc.
Import ListNotations.
Open Scope R_scope.

Lemma poly_nil x : poly [] x = 0.
Proof. unfold poly. simpl. ring. Qed.
Lemma poly_cons' p l x : poly (p :: l) x = p + x * poly l x.
Proof. destruct l as [|q l]; [unfold poly; simpl; ring|apply poly_cons; discriminate]. Qed.
Fixpoint vadd (c : R) (p q : list R) : list R :=   (* p + c q *)
  match p, q with a :: p', b :: q' => (a + c * b) :: vadd c p' q' | _, _ => p end.
Lemma vadd_length c p q : length (vadd c p q) = length p.
Proof. revert q. induction p; intros [|]; simpl; auto. Qed.
Lemma poly_vadd c p q x : length p = length q -> poly (vadd c p q) x = poly p x + c * poly q x.
Proof.
  revert q. induction p as [|a p IH]; intros [|b q] E; try discriminate; cbn [vadd]; [rewrite !poly_nil; ring|].
  injection E as E. rewrite !poly_cons', IH by auto. ring.
Qed.

Lemma total_cons {A} (f : A -> R) a l : total f (a :: l) = f a + total f l.
Proof. reflexivity. Qed.
Section Total.
Context {A : Type}.
Implicit Types (f g : A -> R) (l : list A).
Lemma total_ext_in f g l : (forall x, In x l -> f x = g x) -> total f l = total g l.
Proof. induction l as [|a l IH]; intros H; [reflexivity|]. rewrite !total_cons, H by now left. rewrite IH; auto. intros. apply H. now right. Qed.
Lemma total_ext f g l : (forall x, f x = g x) -> total f l = total g l.
Proof. intros H. apply total_ext_in. auto. Qed.
Lemma total_plus f g l : total (fun x => f x + g x) l = total f l + total g l.
Proof. induction l as [|a l IH]; [cbn; ring|]. rewrite !total_cons, IH. ring. Qed.
Lemma total_scal c f l : total (fun x => c * f x) l = c * total f l.
Proof. induction l as [|a l IH]; [cbn; ring|]. rewrite !total_cons, IH. ring. Qed.
Lemma total_0 l : total (fun _ => 0) l = 0.
Proof. induction l as [|a l IH]; [reflexivity|]. rewrite total_cons, IH. ring. Qed.
Lemma total_all0 f l : (forall x, In x l -> f x = 0) -> total f l = 0.
Proof. intros H. rewrite <- (total_0 l). now apply total_ext_in. Qed.
Lemma total_nonneg f l : (forall x, 0 <= f x) -> 0 <= total f l.
Proof. intros H. induction l as [|a l IH]; [cbn; lra|]. rewrite total_cons. pose proof (H a). lra. Qed.
Lemma total_zero f l : (forall x, 0 <= f x) -> total f l = 0 -> forall x, In x l -> f x = 0.
Proof.
  intros H. induction l as [|a l IH]; intros E x I; [easy|]. rewrite total_cons in E. pose proof (total_nonneg f l H). pose proof (H a).
  destruct I as [<-|I]; [lra|]. apply IH; auto. lra.
Qed.
End Total.
Lemma total_map {A B} (f : B -> R) (h : A -> B) l : total f (map h l) = total (fun x => f (h x)) l.
Proof. induction l as [|a l IH]; [reflexivity|]. cbn [map]. now rewrite !total_cons, IH. Qed.

(** ** Columns and their combinations *)
Definition dot (pts : list (R * R)) (f g : R * R -> R) : R := total (fun x => f x * g x) pts.
Fixpoint comb (cols : list (R * R -> R)) (p : list R) (x : R * R) : R :=
  match cols, p with c :: cols', a :: p' => a * c x + comb cols' p' x | _, _ => 0 end.
Lemma comb_vadd c cols p q x : length p = length q -> comb cols (vadd c p q) x = comb cols p x + c * comb cols q x.
Proof.
  revert p q. induction cols as [|k cols IH]; intros [|a p] [|b q] E; try discriminate; cbn; try ring.
  injection E as E. rewrite IH by auto. ring.
Qed.
Lemma dot_sym pts f g : dot pts f g = dot pts g f.
Proof. apply total_ext. intros. ring. Qed.
Lemma dot_lin pts f g h c : dot pts (fun x => f x + c * g x) h = dot pts f h + c * dot pts g h.
Proof. unfold dot. rewrite <- total_scal, <- total_plus. apply total_ext. intros. ring. Qed.
Lemma dot_ext pts f g h k : (forall x, f x = g x) -> (forall x, h x = k x) -> dot pts f h = dot pts g k.
Proof. intros A B. apply total_ext. intros. now rewrite A, B. Qed.

Lemma dot_comb pts r cols : forall a, (forall c, In c cols -> dot pts r c = 0) -> dot pts r (comb cols a) = 0.
Proof.
  induction cols as [|c cols IH]; intros a H.
  - unfold dot. rewrite <- (total_0 pts). apply total_ext. intros. cbn. ring.
  - destruct a as [|b a].
    + unfold dot. rewrite <- (total_0 pts). apply total_ext. intros. cbn. ring.
    + unfold dot in *. rewrite (total_ext _ (fun x => b * (r x * c x) + r x * comb cols a x)) by (intros; cbn; ring).
      rewrite total_plus, total_scal. rewrite (H c) by now left. rewrite (IH a) by (intros; apply H; now right). ring.
Qed.
(** The normal equations have a solution. *)
Lemma projection pts cols : forall T, exists p, length p = length cols /\
  forall c, In c cols -> dot pts (fun x => T x + - comb cols p x) c = 0.
Proof.
  induction cols as [|k cols IH]; intros T; [exists []; split; [reflexivity|easy]|].
  destruct (IH k) as (a & La & Ha). destruct (IH T) as (p & Lp & Hp).
  set (e := fun x => k x + - comb cols a x) in *. set (r := fun x => T x + - comb cols p x) in *.
  destruct (Req_dec (dot pts e e) 0) as [Z|Z].
  - exists (0 :: p). split; [cbn; lia|].
    assert (E : forall x, In x pts -> e x = 0).
    { intros x I. pose proof (total_zero (fun x => e x * e x) pts ltac:(intros; nra) Z x I). cbn in H. nra. }
    assert (Z2 : forall c, In c cols -> dot pts (fun x => T x + - comb (k :: cols) (0 :: p) x) c = 0).
    { intros c I. transitivity (dot pts r c); [|exact (Hp c I)]. apply dot_ext; auto. intros x. unfold r. cbn [comb]. ring. }
    intros c [<-|I]; auto.
    assert (X : dot pts r (comb cols a) = 0).
    { apply dot_comb. exact Hp. }
    transitivity (dot pts r (comb cols a)); [|exact X]. apply total_ext_in. intros x I. specialize (E x I). unfold e in E. cbn. unfold r.
    replace (k x) with (comb cols a x) by lra. ring.
  - set (b := dot pts r e / dot pts e e). exists (b :: vadd (- b) p a). split; [cbn; rewrite vadd_length; lia|].
    assert (D : forall x, T x + - comb (k :: cols) (b :: vadd (- b) p a) x = r x + (- b) * e x).
    { intros x. cbn. rewrite comb_vadd by lia. unfold r, e. ring. }
    assert (Z2 : forall c, In c cols -> dot pts (fun x => r x + (- b) * e x) c = 0).
    { intros c I. rewrite dot_lin, Hp, Ha by auto. ring. }
    assert (Ze : dot pts (fun x => r x + (- b) * e x) e = 0).
    { rewrite dot_lin. unfold b. field. auto. }
    intros c I. rewrite (dot_ext pts _ (fun x => r x + (- b) * e x) c c D (fun _ => eq_refl)).
    destruct I as [<-|I]; auto.
    assert (X : dot pts (fun x => r x + (- b) * e x) (comb cols a) = 0).
    { apply dot_comb. exact Z2. }
    rewrite dot_sym. rewrite (dot_ext pts k (fun x => e x + 1 * comb cols a x) _ (fun x => r x + - b * e x)) by (intros; unfold e; ring).
    rewrite dot_lin, dot_sym, Ze, dot_sym, X. ring.
Qed.

Definition powers (k n : nat) : list (R * R -> R) := map (fun j x => fst x ^ j) (seq k n).
Lemma comb_powers k p x : comb (powers k (length p)) p x = fst x ^ k * poly p (fst x).
Proof.
  revert k. induction p as [|a p IH]; intros k; cbn [length powers seq map comb]; [rewrite poly_nil; ring|].
  fold (powers (S k) (length p)). rewrite IH, poly_cons'. cbn. ring.
Qed.
Lemma powers_in k n j : (k <= j < k + n)%nat -> In (fun x : R * R => fst x ^ j) (powers k n).
Proof. intros H. apply (in_map (fun j (x : R * R) => fst x ^ j)). apply in_seq. lia. Qed.

(** ** The squared deviation *)
Definition resid (p : list R) (x : R * R) : R := snd x - poly p (fst x).
Lemma chi2_move pts p v c : length p = length v ->
  chi2 pts (vadd c p v) = chi2 pts p - 2 * c * dot pts (resid p) (fun x => poly v (fst x)) + c ^ 2 * total (fun x => poly v (fst x) ^ 2) pts.
Proof.
  intros L. unfold chi2, dot. rewrite <- !total_scal.
  replace (total _ pts - _) with (total (fun x => (snd x - poly p (fst x)) ^ 2) pts + (-1) * total (fun x => 2 * c * (resid p x * poly v (fst x))) pts) by ring.
  rewrite <- total_scal, <- !total_plus. apply total_ext. intros x. rewrite poly_vadd by auto. unfold resid. ring.
Qed.
Lemma dot_poly pts f p : dot pts f (fun x => poly p (fst x)) = total (fun j => nth j p 0 * dot pts f (fun x => fst x ^ j)) (seq 0 (length p)).
Proof.
  assert (G : forall k, dot pts f (fun x => fst x ^ k * poly p (fst x)) = total (fun j => nth (j - k) p 0 * dot pts f (fun x => fst x ^ j)) (seq k (length p))).
  { induction p as [|a p IH]; intros k.
    - cbn [length seq]. apply total_all0. intros. rewrite poly_nil. ring.
    - cbn [length seq total fold_right]. change (fold_right ?g 0 ?l) with (total (fun j => nth (j - k) (a :: p) 0 * dot pts f (fun x => fst x ^ j)) l).
      replace (k - k)%nat with 0%nat by lia. cbn [nth].
      rewrite (total_ext_in _ (fun j => nth (j - S k) p 0 * dot pts f (fun x => fst x ^ j))).
      + rewrite <- IH. unfold dot. rewrite <- total_scal, <- total_plus. apply total_ext. intros x. rewrite poly_cons'. cbn. ring.
      + intros j Hj. apply in_seq in Hj. replace (j - k)%nat with (S (j - S k)) by lia. reflexivity. }
  rewrite <- (total_ext (fun j => nth (j - 0) p 0 * dot pts f (fun x => fst x ^ j))) by (intros; now rewrite Nat.sub_0_r).
  rewrite <- G. apply dot_ext; auto. intros. cbn. ring.
Qed.
Definition normal (pts : list (R * R)) (p : list R) : Prop := forall j, (j < length p)%nat -> dot pts (resid p) (fun x => fst x ^ j) = 0.
Lemma normal_dot pts p v : normal pts p -> length v = length p -> dot pts (resid p) (fun x => poly v (fst x)) = 0.
Proof.
  intros H L. rewrite dot_poly. apply total_all0. intros j I. apply in_seq in I. rewrite H by lia. ring.
Qed.
Definition uvec (k j : nat) : list R := unit_vector k j.
Lemma uvec_poly k j x : (j < k)%nat -> poly (unit_vector k j) x = x ^ j.
Proof.
  unfold unit_vector. intros H.
  assert (G : forall s, poly (map (fun i => if Nat.eqb i j then 1 else 0) (seq s k)) x = if (Nat.leb s j && Nat.ltb j (s + k))%bool then x ^ (j - s) else 0).
  { clear H. induction k as [|k IH]; intros s; cbn [seq map].
    - rewrite poly_nil. destruct (Nat.leb_spec s j); destruct (Nat.ltb_spec j (s + 0)); cbn; auto; lia.
    - rewrite poly_cons', IH. destruct (Nat.eqb_spec s j) as [->|N].
      + rewrite (proj2 (Nat.leb_gt (S j) j)) by lia. rewrite Nat.leb_refl, (proj2 (Nat.ltb_lt j (j + S k))) by lia. cbn. rewrite Nat.sub_diag. cbn. ring.
      + destruct (Nat.leb_spec (S s) j), (Nat.leb_spec s j); try lia; cbn [andb]; try ring.
        replace (s + S k)%nat with (S s + k)%nat by lia. destruct (Nat.ltb j (S s + k)); [|ring].
        replace (j - s)%nat with (S (j - S s)) by lia. cbn. ring. }
  rewrite G. rewrite (proj2 (Nat.leb_le 0 j)), (proj2 (Nat.ltb_lt j (0 + k))) by lia. cbn. now rewrite Nat.sub_0_r.
Qed.
Lemma unit_length k j : length (unit_vector k j) = k.
Proof. unfold unit_vector. now rewrite map_length, seq_length. Qed.

Lemma normal_best pts n p : best_fit pts n p <-> length p = S n /\ normal pts p.
Proof.
  split; intros [L H]; split; auto.
  - intros j Hj. set (v := unit_vector (length p) j). assert (Lv : length v = length p) by apply unit_length.
    set (a := dot pts (resid p) (fun x => poly v (fst x))). set (q := total (fun x => poly v (fst x) ^ 2) pts).
    assert (Hq : 0 <= q) by (apply total_nonneg; intros; apply pow2_ge_0).
    assert (M : forall c, 0 <= - 2 * c * a + c ^ 2 * q).
    { intros c. pose proof (H (vadd c p v) ltac:(rewrite vadd_length; auto)) as X. rewrite chi2_move in X by auto. fold a q in X. lra. }
    assert (a = 0).
    { pose proof (M (a / (q + 1))) as X. assert (a / (q + 1) * (q + 1) = a) by (field; lra). set (c := a / (q + 1)) in *. 
      assert (c = 0 \/ c <> 0) as [C|C] by lra; [rewrite C in *; lra|]. exfalso. assert (0 < c ^ 2) by (nra). nra. }
    rewrite <- H0. apply dot_ext; auto. intros x. unfold v. now rewrite uvec_poly.
  - intros q Lq. assert (E : poly q = poly (vadd 1 p (vadd (-1) q p)) \/ True) by auto. clear E.
    assert (V : chi2 pts q = chi2 pts (vadd 1 p (vadd (-1) q p))).
    { apply total_ext. intros x. rewrite !poly_vadd by (rewrite ?vadd_length; lia). apply f_equal2; auto. ring. }
    rewrite V, chi2_move by (rewrite vadd_length; lia). rewrite normal_dot by (auto; rewrite vadd_length; lia).
    assert (0 <= total (fun x => poly (vadd (-1) q p) (fst x) ^ 2) pts) by (apply total_nonneg; intros; apply pow2_ge_0). lra.
Qed.

Lemma best_exists pts n : exists p, best_fit pts n p.
Proof.
  destruct (projection pts (powers 0 (S n)) snd) as (p & L & H). unfold powers in L at 1. rewrite map_length, seq_length in L.
  exists p. apply normal_best. split; auto. intros j Hj.
  rewrite <- (H (fun x => fst x ^ j)) by (apply powers_in; lia). apply dot_ext; auto. intros x. unfold resid.
  rewrite <- L, comb_powers. cbn. ring.
Qed.

(** ** Roots *)
Fixpoint synth (p : list R) (a : R) : list R :=   (* division by x - a *)
  match p with [] => [] | _ :: p' => match p' with [] => [] | _ => poly p' a :: synth p' a end end.
Lemma synth_length p a : length (synth p a) = (length p - 1)%nat.
Proof. induction p as [|b p IH]; auto. destruct p as [|c p]; auto. cbn [synth length] in *. rewrite IH. lia. Qed.
Lemma synth_cons b p a x : poly (synth (b :: p) a) x = poly p a + x * poly (synth p a) x.
Proof. destruct p as [|c p]; [cbn [synth]; rewrite !poly_nil; ring|]. change (synth (b :: c :: p) a) with (poly (c :: p) a :: synth (c :: p) a). now rewrite poly_cons'. Qed.
Lemma synth_ok p a x : poly p x = poly p a + (x - a) * poly (synth p a) x.
Proof.
  induction p as [|b p IH]; [cbn [synth]; rewrite !poly_nil; ring|]. rewrite synth_cons, !poly_cons', IH. ring.
Qed.
Lemma poly_zero p : Forall (fun c => c = 0) p -> forall x, poly p x = 0.
Proof. intros H x. induction H as [|b p E _ IH]; [apply poly_nil|]. rewrite poly_cons', E, IH. ring. Qed.
Lemma synth_zero p a : Forall (fun c => c = 0) (synth p a) -> poly p a = 0 -> Forall (fun c => c = 0) p.
Proof.
  induction p as [|b p IH]; intros H E; constructor.
  - destruct p as [|c p]; [rewrite poly_cons', poly_nil in E; lra|]. change (synth (b :: c :: p) a) with (poly (c :: p) a :: synth (c :: p) a) in H.
    apply Forall_cons_iff in H as [H _]. rewrite poly_cons', H in E. lra.
  - destruct p as [|c p]; [constructor|]. change (synth (b :: c :: p) a) with (poly (c :: p) a :: synth (c :: p) a) in H.
    apply Forall_cons_iff in H as [H1 H2]. apply IH; auto.
Qed.
Lemma roots_zero l : forall p, NoDup l -> (length p <= length l)%nat -> (forall x, In x l -> poly p x = 0) -> Forall (fun c => c = 0) p.
Proof.
  induction l as [|a l IH]; intros p N L H.
  - destruct p; [constructor|cbn in L; lia].
  - inversion N as [|? ? Na Nl]; subst. apply synth_zero with a; [|apply H; now left]. apply IH; auto.
    + rewrite synth_length. cbn in L. lia.
    + intros x I. pose proof (synth_ok p a x) as E. rewrite (H x) in E by now right. rewrite (H a) in E by now left.
      assert (x <> a) by (intros ->; auto). assert (0 = (x - a) * poly (synth p a) x) as E1 by lra. symmetry in E1. apply Rmult_integral in E1 as [|]; auto. lra.
Qed.
(** a non-zero polynomial vanishing on fewer points than coefficients *)
Fixpoint mulroot (a : R) (p : list R) (c : R) : list R :=   (* (x - a) p, carrying *)
  match p with [] => [c] | b :: p' => (c - a * b) :: mulroot a p' b end.
Lemma mulroot_poly a p c x : poly (mulroot a p c) x = c + (x - a) * poly p x.
Proof. revert c. induction p as [|b p IH]; intros c; cbn [mulroot]; rewrite !poly_cons', ?poly_nil, ?IH; ring. Qed.
Lemma mulroot_length a p c : length (mulroot a p c) = S (length p).
Proof. revert c. induction p; intros; cbn; auto. Qed.
Definition vanishing (l : list R) : list R := fold_right (fun a p => mulroot a p 0) [1] l.
Lemma vanishing_length l : length (vanishing l) = S (length l).
Proof. induction l; auto. cbn [vanishing fold_right]. rewrite mulroot_length. cbn [length]. now f_equal. Qed.
Lemma vanishing_zero l x : In x l -> poly (vanishing l) x = 0.
Proof. induction l as [|a l IH]; intros []; cbn [vanishing fold_right]; rewrite mulroot_poly; fold (vanishing l); [subst; ring|]. rewrite IH by auto. ring. Qed.
Lemma mulroot_last a p c : last (mulroot a p c) 0 = last (c :: p) 0.
Proof. revert c. induction p as [|b p IH]; intros c; auto. cbn [mulroot]. specialize (IH b). destruct (mulroot a p b) eqn:E; [destruct p; discriminate|]. exact IH. Qed.
Lemma vanishing_last l : last (vanishing l) 0 = 1.
Proof.
  induction l as [|a l IH]; auto. cbn [vanishing fold_right]. rewrite mulroot_last. fold (vanishing l). pose proof (vanishing_length l). 
  destruct (vanishing l); [discriminate|]. exact IH.
Qed.
Lemma all_zero_last p : Forall (fun c => c = 0) p -> last p 0 = 0.
Proof. induction 1 as [|b p E H IH]; auto. cbn. destruct p; auto. Qed.
Lemma poly_pad p k x : poly (p ++ repeat 0 k) x = poly p x.
Proof. induction p as [|b p IH]; cbn [app]; [rewrite poly_nil; apply poly_zero, Forall_forall; intros c I; now apply repeat_spec in I|]. rewrite !poly_cons', IH. reflexivity. Qed.

Lemma best_diff pts n p q x : best_fit pts n p -> best_fit pts n q -> In x pts -> poly p (fst x) = poly q (fst x).
Proof.
  intros P Q I. apply normal_best in P as [Lp Np]. pose proof Q as [Lq Mq]. apply normal_best in Q as [_ Nq].
  set (v := vadd (-1) q p). assert (Lv : length v = length p) by (unfold v; rewrite vadd_length; lia).
  pose proof (chi2_move pts p v 1 ltac:(lia)) as E. rewrite normal_dot in E by auto.
  assert (V : chi2 pts q = chi2 pts (vadd 1 p v)).
  { apply total_ext. intros y. unfold v. rewrite !poly_vadd by (rewrite ?vadd_length; lia). apply f_equal2; auto. ring. }
  rewrite <- V in E. pose proof (Mq p Lp).
  assert (0 <= total (fun x => poly v (fst x) ^ 2) pts) by (apply total_nonneg; intros; apply pow2_ge_0).
  assert (Z : total (fun x => poly v (fst x) ^ 2) pts = 0) by lra.
  pose proof (total_zero _ pts (fun y => pow2_ge_0 _) Z x I) as W. cbn beta in W. unfold v in W. rewrite poly_vadd in W by lia. nra.
Qed.
Lemma vadd_zero_eq p q : length p = length q -> Forall (fun c => c = 0) (vadd (-1) q p) -> p = q.
Proof.
  revert q. induction p as [|a p IH]; intros [|b q] L H; try discriminate; auto. cbn in H. apply Forall_cons_iff in H as [E H].
  f_equal; [lra|]. apply IH; auto.
Qed.
Lemma firstn_In' {A} k (l : list A) x : In x (firstn k l) -> In x l.
Proof. intros I. rewrite <- (firstn_skipn k l). apply in_or_app. now left. Qed.
Lemma NoDup_firstn {A} k (l : list A) : NoDup l -> NoDup (firstn k l).
Proof.
  intros N. revert k. induction N as [|a l H N IH]; intros [|k]; cbn; constructor; auto.
  intros I. apply H. now apply firstn_In' in I.
Qed.
Lemma at_least_dec k pts : at_least k pts \/ (length (nodup Req_EM_T (map fst pts)) < k)%nat.
Proof.
  destruct (le_lt_dec k (length (nodup Req_EM_T (map fst pts)))) as [H|H]; auto. left.
  exists (firstn k (nodup Req_EM_T (map fst pts))). split; [|split].
  - apply NoDup_firstn, NoDup_nodup.
  - intros x I. apply (nodup_In Req_EM_T). now apply firstn_In' in I.
  - apply firstn_length_le. auto.
Qed.
Lemma unique_iff pts n : (forall p q, best_fit pts n p -> best_fit pts n q -> p = q) <-> at_least (S n) pts.
Proof.
  split.
  - intros U. destruct (at_least_dec (S n) pts) as [|H]; auto. exfalso.
    set (l := nodup Req_EM_T (map fst pts)) in *. set (w := vanishing l ++ repeat 0 (n - length l)).
    assert (Lw : length w = S n) by (unfold w; rewrite app_length, vanishing_length, repeat_length; lia).
    assert (W : forall x, In x pts -> poly w (fst x) = 0).
    { intros x I. unfold w. rewrite poly_pad. apply vanishing_zero. apply nodup_In. now apply in_map. }
    destruct (best_exists pts n) as [p P]. pose proof P as [Lp Mp].
    assert (Q : best_fit pts n (vadd 1 p w)).
    { split; [rewrite vadd_length; auto|]. intros q Lq. replace (chi2 pts (vadd 1 p w)) with (chi2 pts p); [auto|].
      apply total_ext_in. intros x I. rewrite poly_vadd, W by (auto; lia). apply f_equal2; auto. ring. }
    pose proof (U _ _ P Q) as E.
    assert (Z : Forall (fun c => c = 0) w).
    { clear - E Lp Lw. assert (L : length p = length w) by lia. clear Lp Lw. revert p E L. induction w as [|c w IH]; intros [|a p] E L; try discriminate; constructor.
      - injection E as E _. lra.
      - apply (IH p); auto. now injection E. }
    apply Forall_app in Z as [Z _]. pose proof (all_zero_last _ Z) as Y. rewrite vanishing_last in Y. lra.
  - intros (l & N & I & L) p q P Q. pose proof P as [Lp _]. pose proof Q as [Lq _].
    apply vadd_zero_eq; [lia|]. apply (roots_zero l); auto; [rewrite vadd_length; lia|].
    intros x X. apply I in X. apply in_map_iff in X as (y & <- & Y). rewrite poly_vadd by lia. rewrite (best_diff _ _ _ _ _ P Q Y). ring.
Qed.

(** ** Interpolation, exact data, degree, units *)
Lemma newton pts : NoDup (map fst pts) -> exists p, length p = length pts /\ forall x, In x pts -> poly p (fst x) = snd x.
Proof.
  induction pts as [|[a t] pts IH]; intros N; [exists []; split; auto; easy|]. cbn in N. inversion N as [|? ? Na Np]; subst.
  destruct (IH Np) as (p & L & H). set (w := vanishing (map fst pts)).
  assert (W : poly w a <> 0).
  { intros Z. assert (F : Forall (fun c => c = 0) w).
    { apply (roots_zero (a :: map fst pts)); [constructor; auto|unfold w; rewrite vanishing_length; cbn; lia|]. intros x [<-|I]; auto. now apply vanishing_zero. }
    apply all_zero_last in F. unfold w in F. rewrite vanishing_last in F. lra. }
  set (c := (t - poly p a) / poly w a). exists (vadd c (p ++ repeat 0 1) w).
  assert (E : length (p ++ repeat 0 1) = length w) by (unfold w; rewrite vanishing_length, app_length, map_length; cbn; lia).
  split; [rewrite vadd_length, app_length; cbn; lia|]. intros x [<-|I]; cbn [fst snd]; rewrite poly_vadd, poly_pad by auto.
  - unfold c. field. auto.
  - rewrite H by auto. unfold w. rewrite vanishing_zero by now apply in_map. ring.
Qed.
Lemma interpolates pts n p : NoDup (map fst pts) -> (length pts <= S n)%nat -> best_fit pts n p -> forall x, In x pts -> poly p (fst x) = snd x.
Proof.
  intros N L [Lp M] x I. destruct (newton pts N) as (q & Lq & H).
  set (q' := q ++ repeat 0 (S n - length q)). pose proof (M q' ltac:(unfold q'; rewrite app_length, repeat_length; lia)) as E.
  assert (Z : chi2 pts q' = 0).
  { apply total_all0. intros y J. unfold q'. rewrite poly_pad, H by auto. ring. }
  assert (0 <= chi2 pts p) by (apply total_nonneg; intros; apply pow2_ge_0).
  assert (C : chi2 pts p = 0) by lra. pose proof (total_zero _ pts (fun y => pow2_ge_0 _) C x I) as W. cbn beta in W. nra.
Qed.
Lemma recovers pts n c p : length c = S n -> (forall x, In x pts -> snd x = poly c (fst x)) -> at_least (S n) pts -> best_fit pts n p -> p = c.
Proof.
  intros L H A P. refine (proj2 (unique_iff pts n) A p c P _). split; auto. intros q _.
  replace (chi2 pts c) with 0; [apply total_nonneg; intros; apply pow2_ge_0|]. symmetry; apply total_all0.
  intros x I. rewrite H by auto. ring.
Qed.
Lemma mean_zero pts n p : best_fit pts n p -> total (fun x => poly p (fst x)) pts = total snd pts.
Proof.
  intros P. apply normal_best in P as [L N]. specialize (N 0%nat ltac:(lia)). unfold dot, resid in N.
  rewrite (total_ext _ (fun x => snd x + (-1) * poly p (fst x))) in N by (intros; cbn; ring). rewrite total_plus, total_scal in N. lra.
Qed.
Lemma degree_mono pts n k p q : (n <= k)%nat -> best_fit pts n p -> best_fit pts k q -> chi2 pts q <= chi2 pts p.
Proof.
  intros H [Lp _] [_ M]. specialize (M (p ++ repeat 0 (k - n)) ltac:(rewrite app_length, repeat_length; lia)).
  replace (chi2 pts p) with (chi2 pts (p ++ repeat 0 (k - n))); auto. apply total_ext. intros. now rewrite poly_pad.
Qed.
Fixpoint rescale (a b : R) (p : list R) : list R := match p with [] => [] | c :: p' => a * c :: rescale (a / b) b p' end.
Lemma rescale_length a b p : length (rescale a b p) = length p.
Proof. revert a. induction p; intros; cbn; auto. Qed.
Lemma rescale_poly a b p x : b <> 0 -> poly (rescale a b p) (b * x) = a * poly p x.
Proof. intros Hb. revert a. induction p as [|c p IH]; intros a; cbn [rescale]; [rewrite !poly_nil; ring|]. rewrite !poly_cons', IH. field. auto. Qed.
Lemma rescale_nth a b p j : b <> 0 -> nth j (rescale a b p) 0 = a / b ^ j * nth j p 0.
Proof.
  intros Hb. revert a j. induction p as [|c p IH]; intros a j; [destruct j; cbn [rescale nth]; unfold Rdiv; ring|].
  destruct j as [|j]; cbn [rescale nth]; [cbn [pow]; field|]. rewrite IH. cbn [pow]. field. split; [now apply pow_nonzero|auto].
Qed.
Lemma best_rescale pts n a b p : a <> 0 -> b <> 0 -> best_fit pts n p -> best_fit (map (fun x => (b * fst x, a * snd x)) pts) n (rescale a b p).
Proof.
  intros Ha Hb [L M]. split; [now rewrite rescale_length|]. intros q Lq.
  assert (E : forall r, chi2 (map (fun x => (b * fst x, a * snd x)) pts) (rescale a b r) = a ^ 2 * chi2 pts r).
  { intros r. unfold chi2. rewrite total_map, <- total_scal. apply total_ext. intros x. cbn [fst snd]. rewrite rescale_poly by auto. ring. }
  set (r := rescale (/ a) (/ b) q).
  assert (Q : forall x, poly (rescale a b r) (b * x) = poly q (b * x)).
  { intros x. rewrite rescale_poly by auto. unfold r. replace x with (/ b * (b * x)) at 1 by (field; auto). rewrite rescale_poly by now apply Rinv_neq_0_compat. field. auto. }
  replace (chi2 _ q) with (chi2 (map (fun x => (b * fst x, a * snd x)) pts) (rescale a b r)).
  - rewrite !E. apply Rmult_le_compat_l; [apply pow2_ge_0|]. apply M. unfold r. now rewrite rescale_length.
  - unfold chi2. rewrite !total_map. apply total_ext. intros x. cbn [fst snd]. now rewrite Q.
Qed.
