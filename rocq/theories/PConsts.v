(** * Proofs about consts.rs *)
From Coq Require Import Reals List Bool Psatz.
From Coquelicot Require Import Coquelicot.
From Verif Require Import Num MCommon MConsts MUtils MDress MQuark SpecConsts.
Import ListNotations.
Open Scope R_scope.

Section Gen.
Context {F : Type} (O : FloatOps F).

Lemma run_calls_app g h c : run_calls O g (h ++ [c]) = fst (do_call O (run_calls O g h) c).
Proof. unfold run_calls. now rewrite fold_left_app. Qed.

Lemma ratio_invariant h : let g := run_calls O (default_globals O) h in
  nf_div_nc g = f_div O (f_of_u32 O (get_number_of_fermions g)) (f_of_u32 O (get_number_of_colors g)).
Proof.
  simpl. induction h as [|c h IH] using rev_ind; [reflexivity|].
  rewrite run_calls_app.
  destruct c; simpl; auto.
  - unfold set_default_tol_integral. destruct (f_pos O t); simpl; auto.
  - unfold set_matsubara_reg. destruct (f_pos O r); simpl; auto.
Qed.

Lemma last_selected_snoc_some {A B} (sel : A -> option B) d h c v :
  sel c = Some v -> last_selected sel d (h ++ [c]) v.
Proof.
  intros H. right. exists h, c, []. repeat split; auto. simpl; tauto.
Qed.
Lemma last_selected_snoc_none {A B} (sel : A -> option B) d h c v :
  sel c = None -> last_selected sel d h v -> last_selected sel d (h ++ [c]) v.
Proof.
  intros H [[-> N]|(h1 & c1 & h2 & -> & E & N)].
  - left. split; auto. intros x Hx. apply in_app_or in Hx as [?|[<-|[]]]; auto.
  - right. exists h1, c1, (h2 ++ [c]). rewrite <- app_assoc. repeat split; auto.
    intros x Hx. apply in_app_or in Hx as [?|[<-|[]]]; auto.
Qed.

Ltac getter_tac :=
  intros h; induction h as [|c h IH] using rev_ind;
  [ left; split; [reflexivity | simpl; tauto]
  | rewrite run_calls_app; destruct c; simpl;
    repeat match goal with
    | |- context [set_default_tol_integral O ?t ?g] => unfold set_default_tol_integral
    | |- context [set_matsubara_reg O ?t ?g] => unfold set_matsubara_reg
    end;
    try match goal with |- context [if f_pos O ?t then _ else _] => destruct (f_pos O t) eqn:?; simpl end;
    first [ apply last_selected_snoc_some; simpl; try (match goal with H : f_pos O _ = _ |- _ => rewrite H end); reflexivity
          | apply last_selected_snoc_none; [simpl; try (match goal with H : f_pos O _ = _ |- _ => rewrite H end); reflexivity | exact IH] ] ].

Lemma getter_nc : forall h, last_selected sel_nc 3%nat h (get_number_of_colors (run_calls O (default_globals O) h)).
Proof. getter_tac. Qed.
Lemma getter_nf : forall h, last_selected sel_nf 1%nat h (get_number_of_fermions (run_calls O (default_globals O) h)).
Proof. getter_tac. Qed.
Lemma getter_mq : forall h, last_selected sel_mq (f_lit_half O) h (get_default_quark_mass (run_calls O (default_globals O) h)).
Proof. getter_tac. Qed.
Lemma getter_mi : forall h, last_selected sel_mi 50%nat h (get_default_max_iter_integral (run_calls O (default_globals O) h)).
Proof. getter_tac. Qed.
Lemma getter_tol : forall h, last_selected (sel_tol (f_pos O)) (f_lit_1em10 O) h (get_default_tol_integral (run_calls O (default_globals O) h)).
Proof. getter_tac. Qed.
Lemma getter_reg : forall h, last_selected (sel_reg (f_pos O)) (f_lit_1em5 O) h (get_matsubara_reg (run_calls O (default_globals O) h)).
Proof. getter_tac. Qed.

Lemma pos_invariant : f_pos O (f_lit_1em10 O) = true -> f_pos O (f_lit_1em5 O) = true ->
  forall g, reachable O g ->
  f_pos O (get_default_tol_integral g) = true /\ f_pos O (get_matsubara_reg g) = true.
Proof.
  intros H1 H2 g [h ->]. induction h as [|c h IH] using rev_ind; [split; assumption|].
  rewrite run_calls_app.
  destruct c; simpl; auto.
  - unfold set_default_tol_integral. destruct (f_pos O t) eqn:P; simpl; tauto.
  - unfold set_matsubara_reg. destruct (f_pos O r) eqn:P; simpl; tauto.
Qed.

Lemma tol_panic g t :
  (snd (do_call O g (SetTol t)) = true <-> f_pos O t = false) /\
  (snd (do_call O g (SetTol t)) = true -> fst (do_call O g (SetTol t)) = g).
Proof.
  simpl. unfold set_default_tol_integral. destruct (f_pos O t); simpl; split; try split; intros; try discriminate; auto.
Qed.
Lemma reg_panic g t :
  (snd (do_call O g (SetReg t)) = true <-> f_pos O t = false) /\
  (snd (do_call O g (SetReg t)) = true -> fst (do_call O g (SetReg t)) = g).
Proof.
  simpl. unfold set_matsubara_reg. destruct (f_pos O t); simpl; split; try split; intros; try discriminate; auto.
Qed.
End Gen.

(** Default method *)
Lemma default_method {F} (O : FloatOps F) h :
  let g := run_calls O (default_globals O) h in
  exists t n, get_default_integration_method g = G7K15 t n /\
    last_selected (sel_tol (f_pos O)) (f_lit_1em10 O) h t /\ last_selected sel_mi 50%nat h n.
Proof.
  intros g. exists (get_default_tol_integral g), (get_default_max_iter_integral g).
  split; [reflexivity|]. split; [apply getter_tol | apply getter_mi].
Qed.

Lemma zm_method_real (g : globals R) : zm_default_method OpsR g = G7K15 (/ 10 ^ 8) (g_max_iter_integral g).
Proof.
  unfold zm_default_method, get_default_integration_method. simpl.
  destruct (Req_EM_T (g_tol_integral g) (g_tol_integral g)) as [_|N]; [|congruence].
  rewrite PeanoNat.Nat.eqb_refl. reflexivity.
Qed.
