(** * The fitted phase boundary in binary64: consequences and examples *)
From Coq Require Import ZArith Reals Psatz Lia List Bool.
From Flocq Require Import Core IEEE754.BinarySingleNaN IEEE754.Binary IEEE754.Bits.
From Verif Require Import MFloat MGrid MUtils MTc MFit64 SpecGrid SpecTc SpecFit64 PGrid PGrid2 PGrid3 PGrid4 PFerm64 PTc PTc64 PTc64b PFit64.
Import List ListNotations.
Open Scope R_scope.

Lemma horner_error mu params : fin mu -> Rabs (val mu) <= 1 -> coefficients params -> params <> [] -> degree params <= 2 ^ 19 ->
  exists r, parametric_phase_diagram_f64 mu params = Ret r /\ fin r /\
    Rabs (val r - exact_value params mu) <= (4 * degree params + 2) * (bpow radix2 (-53) * term_sum params mu + bpow radix2 (-1075)).
Proof.
  intros Fm Bm HC Hn Hd. destruct params as [|p0 rest]; [congruence|]. unfold degree in *. cbn [length] in *. replace (S (length rest) - 1)%nat with (length rest) in * by lia.
  destruct (horner_ok mu Fm Bm p0 rest HC Hd) as (r & x & a & E & F & X & A & B). exists r. split; [auto|]. split; [auto|].
  rewrite ppd_correct in X, A by discriminate. 
  assert (X' : exact_value (p0 :: rest) mu = x) by exact (f_equal (fun o => match o with Ret v => v | _ => 0 end) X).
  assert (A' : term_sum (p0 :: rest) mu = a) by exact (f_equal (fun o => match o with Ret v => v | _ => 0 end) A).
  rewrite X', A'.
  apply Rle_trans with (1 := B). right. symmetry. exact (Rmult_plus_distr_l _ (u * a) eta).
Qed.
Lemma poly_nonneg l x : Forall (fun p => 0 <= p) l -> 0 <= x -> 0 <= poly l x.
Proof.
  intros H Hx. unfold poly. generalize (length l - 1)%nat. intros n. induction n as [|n IH]; cbn [sum_f_R0].
  - assert (0 <= nth 0 l 0). { destruct l; [simpl; lra|]. inversion H; auto. } rewrite pow_O. lra.
  - assert (0 <= nth (S n) l 0 * x ^ S n); [|lra]. apply Rmult_le_pos; [|now apply pow_le].
    destruct (nth_in_or_default (S n) l 0) as [I|E]; [rewrite Forall_forall in H; auto|lra].
Qed.
Lemma abs_same params mu : Forall (fun p => 0 <= val p) params -> 0 <= val mu -> term_sum params mu = exact_value params mu.
Proof.
  intros H Hm. unfold term_sum, exact_value. rewrite (Rabs_pos_eq (val mu)) by auto. f_equal. apply map_ext_in. intros p Hp. rewrite Forall_forall in H. apply Rabs_pos_eq, H, Hp.
Qed.
(** no cancellation for coefficients of one sign *)
Lemma positive_coeffs mu params : fin mu -> 0 <= val mu <= 1 -> coefficients params -> Forall (fun p => 0 <= val p) params -> params <> [] -> degree params <= 2 ^ 19 ->
  exists r, parametric_phase_diagram_f64 mu params = Ret r /\ fin r /\
    Rabs (val r - exact_value params mu) <= (4 * degree params + 2) * (bpow radix2 (-53) * exact_value params mu + bpow radix2 (-1075)).
Proof.
  intros Fm Bm HC HP Hn Hd. assert (Ha : Rabs (val mu) <= 1) by (rewrite Rabs_pos_eq; lra).
  destruct (horner_error mu params Fm Ha HC Hn Hd) as (r & E & F & B). exists r. split; [exact E|]. split; [exact F|]. rewrite (abs_same params mu HP ltac:(lra)) in B. exact B.
Qed.
Lemma zero_loop mu l : fin mu -> val mu = 0 -> Forall (fun p => fin p /\ Rabs (val p) <= bpow radix2 100) l -> forall r, fin r -> val r = 0 ->
  let r' := fold_left (fun res p => (res [+] p) [*] mu) l r in fin r' /\ val r' = 0.
Proof.
  intros Fm Zm. induction 1 as [|p l (Fp & Bp) Hl IH]; intros r Fr Zr; cbn [fold_left]; [auto|].
  destruct (plus_ok r p 100 Fr Fp ltac:(lia)) as (F1 & V1); [rewrite Zr, Rplus_0_l; auto|].
  destruct (mult_ok (r [+] p) mu 0 F1 Fm ltac:(lia)) as (F2 & V2); [rewrite Zm, Rmult_0_r, Rabs_R0; apply bpow_ge_0|].
  apply IH; [exact F2|]. rewrite V2, Zm, Rmult_0_r. apply rnd_0.
Qed.
Lemma at_zero mu p0 rest : fin mu -> val mu = 0 -> coefficients (p0 :: rest) ->
  exists r, parametric_phase_diagram_f64 mu (p0 :: rest) = Ret r /\ fin r /\ val r = val p0.
Proof.
  intros Fm Zm HC. inversion HC as [|? ? (F0 & B0) HR]; subst.
  destruct (zero_loop mu (rev rest) Fm Zm (Forall_rev HR) f64_zero eq_refl eq_refl) as (F & V).
  eexists. split; [reflexivity|]. destruct (plus_ok _ p0 100 F F0 ltac:(lia)) as (F1 & V1); [cbv zeta in V; rewrite V, Rplus_0_l; auto|]. split; [exact F1|]. rewrite V, Rplus_0_l in V1. exact (eq_trans V1 (rnd_val p0)).
Qed.
Lemma panics_empty mu params : parametric_phase_diagram_f64 mu params = Panic <-> params = [].
Proof. destruct params; split; intros H; auto; discriminate H. Qed.

Definition ex_params : list F64 := [f64_lit 1 1; f64_lit (-2) 1; f64_lit 3 1].
Lemma lit1 a : (Z.abs a <= 2 ^ 53)%Z -> fin (f64_lit a 1) /\ val (f64_lit a 1) = IZR a.
Proof.
  intros H. destruct (lit_ok a 1 H ltac:(lia)) as (F & V). split; [auto|]. rewrite V. destruct (of_Z_ok a H) as (Fz & Vz).
  unfold Rdiv. rewrite Rinv_1, Rmult_1_r, <- Vz. apply (rnd_val (f64_of_Z a)).
Qed.
Lemma ex_fit : coefficients ex_params /\ degree ex_params <= 2 ^ 19 /\ (fin (f64_lit 1 2) /\ val (f64_lit 1 2) = 1 / 2) /\
  exact_value ex_params (f64_lit 1 2) = 3 / 4 /\ term_sum ex_params (f64_lit 1 2) = 11 / 4 /\
  exists r, parametric_phase_diagram_f64 (f64_lit 1 2) ex_params = Ret r /\ f64_eq r (f64_lit 3 4) = true.
Proof.
  destruct (lit1 1 ltac:(lia)) as (F1 & V1). destruct (lit1 (-2) ltac:(lia)) as (F2 & V2). destruct (lit1 3 ltac:(lia)) as (F3 & V3).
  assert (H : fin (f64_lit 1 2) /\ val (f64_lit 1 2) = 1 / 2).
  { destruct (lit_ok 1 2 ltac:(lia) ltac:(lia)) as (F & V). split; [auto|]. rewrite V. change (IZR 1 / IZR 2) with (1 / 2). replace (1 / 2) with (bpow radix2 (-1)) by (simpl; lra).
    apply round_generic; [apply valid_rnd_N|]. apply generic_format_bpow. unfold FLT_exp. lia. }
  assert (B : forall x, Rabs x <= 4 -> Rabs x <= bpow radix2 100). { intros x Hx. apply Rle_trans with (1 := Hx). change 4 with (bpow radix2 2). apply bpow_le. lia. }
  split; [|split; [|split; [auto|split; [|split]]]].
  - unfold ex_params, coefficients. assert (D : forall p x, fin p -> val p = x -> Rabs x <= 4 -> fin p /\ Rabs (val p) <= bpow radix2 100) by (intros p x Fp Vp Hx; split; [exact Fp|rewrite Vp; apply B, Hx]).
    apply Forall_cons; [apply (D _ 1 F1 V1), Rabs_le; lra|]. apply Forall_cons; [apply (D _ (-2) F2 V2), Rabs_le; lra|]. apply Forall_cons; [apply (D _ 3 F3 V3), Rabs_le; lra|]. apply Forall_nil.
  - unfold degree, ex_params. simpl. lra.
  - unfold exact_value, ex_params, poly. cbn [map length Nat.sub sum_f_R0 nth pow]. rewrite V1, V2, V3. destruct H as (_ & ->). lra.
  - unfold term_sum, ex_params, poly. cbn [map length Nat.sub sum_f_R0 nth pow]. rewrite V1, V2, V3. destruct H as (_ & ->). rewrite (Rabs_pos_eq 1), (Rabs_pos_eq 3), (Rabs_left1 (-2)), (Rabs_pos_eq (1 / 2)) by lra. lra.
  - eexists. split; [reflexivity|]. vm_compute. reflexivity.
Qed.
