(** * Limits of complex-valued functions: calculus *)
From Coq Require Import Reals Psatz List.
From Coquelicot Require Import Coquelicot.
From Verif Require Import Num CField PCplx PLim.
Import List ListNotations.
Open Scope R_scope.

Section Calculus.
Context {F : (R -> Prop) -> Prop} {FF : Filter F}.
Lemma tendsC_const c : tendsC F (fun _ => c) c.
Proof. split; apply tends_const. Qed.
Lemma tendsC_RtoC f a : tends F f a -> tendsC F (fun x => RtoC (f x)) (RtoC a).
Proof. intros H. split; simpl; [exact H|apply tends_const]. Qed.
Lemma tendsC_plus f g a b : tendsC F f a -> tendsC F g b -> tendsC F (fun x => (f x + g x)%C) (a + b)%C.
Proof. intros [H1 H2] [H3 H4]. split; simpl; now apply tends_plus. Qed.
Lemma tendsC_opp f a : tendsC F f a -> tendsC F (fun x => (- f x)%C) (- a)%C.
Proof. intros [H1 H2]. split; simpl; now apply tends_opp. Qed.
Lemma tendsC_minus f g a b : tendsC F f a -> tendsC F g b -> tendsC F (fun x => (f x - g x)%C) (a - b)%C.
Proof. intros H1 H2. apply tendsC_plus; auto. now apply tendsC_opp. Qed.
Lemma tendsC_mult f g a b : tendsC F f a -> tendsC F g b -> tendsC F (fun x => (f x * g x)%C) (a * b)%C.
Proof. intros [H1 H2] [H3 H4]. split; simpl; [apply tends_minus|apply tends_plus]; now apply tends_mult. Qed.
Lemma nsq_neq (a : C) : a <> RtoC 0 -> fst a * (fst a * 1) + snd a * (snd a * 1) <> 0.
Proof.
  intros H E. apply H. destruct a as [x y]. simpl in *. pose proof (Rle_0_sqr x). pose proof (Rle_0_sqr y). unfold Rsqr in *.
  apply Ceq; simpl; nra.
Qed.
Lemma tendsC_inv f a : a <> RtoC 0 -> tendsC F f a -> tendsC F (fun x => (/ f x)%C) (/ a)%C.
Proof.
  intros Ha [H1 H2]. pose proof (nsq_neq a Ha) as Hn. 
  assert (Hd : tends F (fun x => fst (f x) * (fst (f x) * 1) + snd (f x) * (snd (f x) * 1)) (fst a * (fst a * 1) + snd a * (snd a * 1))).
  { apply tends_plus; apply tends_mult; auto; apply tends_mult; auto; apply tends_const. }
  split; simpl; apply tends_div; auto. now apply tends_opp.
Qed.
Lemma tendsC_div f g a b : b <> RtoC 0 -> tendsC F f a -> tendsC F g b -> tendsC F (fun x => (f x / g x)%C) (a / b)%C.
Proof. intros Hb H1 H2. apply tendsC_mult; auto. now apply tendsC_inv. Qed.
Lemma tendsC_ext f g l : F (fun x => f x = g x) -> tendsC F f l -> tendsC F g l.
Proof.
  intros H [H1 H2]. split; [apply (tends_ext (fun x => fst (f x)))|apply (tends_ext (fun x => snd (f x)))]; auto;
  revert H; apply filter_imp; intros x ->; auto.
Qed.
Lemma tendsC_eq f a b : a = b -> tendsC F f a -> tendsC F f b.
Proof. now intros ->. Qed.
(** A factor that vanishes times a bounded one. *)
Lemma tends_bounded f g M : tends F f 0 -> F (fun x => Rabs (g x) <= M) -> tends F (fun x => f x * g x) 0.
Proof.
  intros H1 H2. apply (tends_squeeze0 _ (fun x => Rabs (f x) * M)).
  - revert H2. apply filter_imp. intros x Hx. rewrite Rabs_mult. apply Rmult_le_compat_l; auto. apply Rabs_pos.
  - apply (tends_eq _ (Rabs 0 * M)); [rewrite Rabs_R0; ring|]. apply tends_mult; [|apply tends_const].
    apply (tends_comp Rabs); auto. apply continuous_Rabs.
Qed.
End Calculus.

Ltac tendC :=
  first
  [ eassumption
  | apply tendsC_const
  | eapply tendsC_plus; [tendC|tendC]
  | eapply tendsC_minus; [tendC|tendC]
  | eapply tendsC_opp; tendC
  | eapply tendsC_mult; [tendC|tendC]
  | eapply tendsC_div; [|tendC|tendC]
  | eapply tendsC_inv; [|tendC]
  | eapply tendsC_RtoC; tend ].

Ltac tendCf :=
  lazymatch goal with
  | |- tendsC _ (fun _ => ?c) _ => apply tendsC_const
  | |- tendsC _ (fun x => (@?a x + @?b x)%C) _ => eapply (tendsC_plus a b); [tendCf|tendCf]
  | |- tendsC _ (fun x => (@?a x - @?b x)%C) _ => eapply (tendsC_minus a b); [tendCf|tendCf]
  | |- tendsC _ (fun x => (- @?a x)%C) _ => eapply (tendsC_opp a); tendCf
  | |- tendsC _ (fun x => (@?a x * @?b x)%C) _ => eapply (tendsC_mult a b); [tendCf|tendCf]
  | |- tendsC _ (fun x => (@?a x / @?b x)%C) _ => eapply (tendsC_div a b); [|tendCf|tendCf]
  | |- tendsC _ (fun x => (/ @?a x)%C) _ => eapply (tendsC_inv a); [|tendCf]
  | |- tendsC _ (fun x => RtoC (@?a x)) _ => eapply (tendsC_RtoC a); tendf
  | |- _ => eassumption
  end.

(** Limits of all the entries of a list. *)
Lemma nth_tendsC F {FF : Filter F} (l : R -> list C) (l0 : list C) :
  (forall x, length (l x) = length l0) ->
  (forall n, (n < length l0)%nat -> tendsC F (fun x => nth n (l x) (RtoC 0)) (nth n l0 (RtoC 0))) ->
  forall n, tendsC F (fun x => nth n (l x) (RtoC 0)) (nth n l0 (RtoC 0)).
Proof.
  intros Hl H n. destruct (Compare_dec.lt_dec n (length l0)) as [Hn|Hn]; [now apply H|].
  rewrite (nth_overflow l0) by lia. apply (tendsC_ext (fun _ => RtoC 0)); [|apply tendsC_const].
  apply filter_forall. intros x. rewrite nth_overflow; auto. rewrite Hl. lia.
Qed.
