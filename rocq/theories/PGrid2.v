(** * The grids of the programs, point by point *)
From Coq Require Import ZArith Reals Psatz Lia List Bool.
From Flocq Require Import Core IEEE754.BinarySingleNaN IEEE754.Binary IEEE754.Bits.
From Verif Require Import MFloat MGrid SpecGrid PGrid.
Import ListNotations.
Open Scope R_scope.

(** a decision procedure for [|x - a / b| <= 10^-13] *)
Definition near (a b : Z) (x : F64) : bool :=
  match x with
  | Binary.B754_zero _ => (Z.abs a * 10 ^ 13 <=? b)%Z
  | Binary.B754_finite s m e _ =>
      (Z.abs ((if s then Zneg m else Zpos m) * b * 2 ^ Z.max 0 e - a * 2 ^ Z.max 0 (- e)) * 10 ^ 13 <=? b * 2 ^ Z.max 0 (- e))%Z
  | _ => false
  end.
Lemma bpow_split e : bpow radix2 e * IZR (2 ^ Z.max 0 (- e)) = IZR (2 ^ Z.max 0 e).
Proof.
  assert (P : forall z, (0 <= z)%Z -> IZR (2 ^ z) = bpow radix2 z) by (intros z Hz; exact (IZR_Zpower radix2 z Hz)).
  rewrite !P by lia. rewrite <- bpow_plus. f_equal. lia.
Qed.
Lemma near_le (v a b s : R) : 0 < b -> 0 < s -> Rabs (v * b * s - a * s) * 10 ^ 13 <= b * s -> Rabs (v - a / b) <= / 10 ^ 13.
Proof.
  intros Hb Hs H. replace (v * b * s - a * s) with ((v - a / b) * (b * s)) in H by (field; lra). assert (0 < b * s) by (apply Rmult_lt_0_compat; auto).
  rewrite Rabs_mult, (Rabs_pos_eq (b * s)) in H by lra. apply Rmult_le_reg_r with (b * s); auto. apply Rmult_le_reg_r with (10 ^ 13); [apply pow_lt; lra|]. rewrite (Rmult_comm (/ 10 ^ 13)), (Rmult_assoc (b * s)), Rinv_l by (apply pow_nonzero; lra). lra.
Qed.
Lemma pow13 : IZR (10 ^ 13) = 10 ^ 13.
Proof. symmetry. exact (pow_IZR 10 13). Qed.
Lemma near_ok a b x : (0 < b)%Z -> near a b x = true -> fin x /\ Rabs (val x - IZR a / IZR b) <= / 10 ^ 13.
Proof.
  intros Hb H. assert (Hb' : 0 < IZR b) by (apply IZR_lt; auto). destruct x as [s|s|s pl Hpl|s m e He]; try discriminate H; (split; [reflexivity|]).
  - unfold near in H. apply Z.leb_le, IZR_le in H. rewrite mult_IZR, abs_IZR, pow13 in H.
    apply (near_le _ _ _ 1); try lra. simpl val. rewrite Rmult_0_l, Rmult_0_l. replace (0 - IZR a * 1) with (- IZR a) by ring. rewrite Rabs_Ropp. exact (Rle_trans _ _ _ H (Req_le _ _ (eq_sym (Rmult_1_r _)))).
  - unfold near in H. apply Z.leb_le, IZR_le in H. rewrite !mult_IZR, abs_IZR, minus_IZR, !mult_IZR in H. set (S0 := IZR (2 ^ Z.max 0 (- e))) in *.
    assert (HS : 0 < S0) by (apply IZR_lt, Z.pow_pos_nonneg; lia). rewrite <- bpow_split in H. fold S0 in H. rewrite pow13 in H.
    apply (near_le _ _ _ S0); auto. unfold val, B2R, F2R. simpl Fnum. simpl Fexp.
    replace (IZR (cond_Zopp s (Z.pos m)) * bpow radix2 e * IZR b * S0) with (IZR (if s then Z.neg m else Z.pos m) * IZR b * (bpow radix2 e * S0)) by (destruct s; simpl; ring). exact H.
Qed.

Fixpoint increasing (l : list F64) : bool :=
  match l with
  | x :: (y :: _) as t => f64_lt x y && increasing t
  | _ => true
  end.
Lemma lt_ok x y : fin x -> fin y -> f64_lt x y = true -> val x < val y.
Proof.
  intros Fx Fy H. unfold f64_lt, b64_compare in H. rewrite (Bcompare_correct 53 1024 x y Fx Fy) in H. fold (val x) (val y) in H. destruct (Rcompare_spec (val x) (val y)); auto; discriminate.
Qed.
Lemma increasing_ok l : Forall fin l -> increasing l = true -> forall i d, (S i < length l)%nat -> val (nth i l d) < val (nth (S i) l d).
Proof.
  induction l as [|x l IH]; intros F H i d L; [simpl in L; lia|]. destruct l as [|y l]; [simpl in L; lia|]. simpl in H. apply andb_prop in H. destruct H as (H1 & H2). inversion F; subst.
  destruct i; simpl; [apply lt_ok; auto; now inversion H4|]. apply (IH H4 H2 i d). simpl in *. lia.
Qed.
Fixpoint all_near (g : Z -> Z) (b : Z) (i : Z) (l : list F64) : bool :=
  match l with [] => true | x :: t => near (g i) b x && all_near g b (i + 1) t end.
Lemma all_near_ok g b l : (0 < b)%Z -> forall i0, all_near g b i0 l = true ->
  Forall fin l /\ forall i d, (i < length l)%nat -> Rabs (val (nth i l d) - IZR (g (i0 + Z.of_nat i)%Z) / IZR b) <= / 10 ^ 13.
Proof.
  intros Hb. induction l as [|x l IH]; intros i0 H; [split; [constructor|intros i d L; simpl in L; lia]|]. simpl in H. apply andb_prop in H. destruct H as (H1 & H2).
  destruct (near_ok _ _ _ Hb H1) as (F & N). destruct (IH _ H2) as (FF & NN). split; [constructor; auto|]. intros [|i] d L; simpl; [now rewrite Z.add_0_r|].
  replace (i0 + Z.pos (Pos.of_succ_nat i))%Z with (i0 + 1 + Z.of_nat i)%Z by lia. apply NN. simpl in L. lia.
Qed.
Definition check (l : list F64) (n : Z) (g : Z -> Z) (b : Z) : bool := ((Z.of_nat (length l) =? n) && all_near g b 0 l && increasing l)%bool%Z.
Lemma check_ok l n g b (G : nat -> R) : (0 < b)%Z -> check l n g b = true -> (forall i, G i = IZR (g (Z.of_nat i)) / IZR b) -> grid_near l (Z.to_nat n) G.
Proof.
  intros Hb H E. unfold check in H. apply andb_prop in H. destruct H as (H & H3). apply andb_prop in H. destruct H as (H1 & H2). apply Z.eqb_eq in H1.
  assert (L : length l = Z.to_nat n) by lia. destruct (all_near_ok g b l Hb 0 H2) as (F & N). split; [exact L|]. rewrite <- L. split; [exact F|]. split; [now apply increasing_ok|].
  intros i d Hi. rewrite E. exact (N i d Hi).
Qed.
Ltac grid a b := refine (check_ok _ _ a b _ eq_refl _ _); [vm_compute; reflexivity|intros i; rewrite INR_IZR_INZ; rewrite ?mult_IZR, ?plus_IZR, ?mult_IZR, ?plus_IZR; field].

(** ** Whole grids, for all parameters *)
Section Whole.
Variables vmin vmax dv : F64.
Hypothesis Fmin : fin vmin.
Hypothesis Fmax : fin vmax.
Hypothesis Fdv : fin dv.
Hypothesis Bmin9 : Rabs (val vmin) <= bpow radix2 899.
Hypothesis Bmax9 : Rabs (val vmax) <= bpow radix2 899.
Lemma Bmin : Rabs (val vmin) <= bpow radix2 900. Proof. apply Rle_trans with (1 := Bmin9), bpow_le. lia. Qed.
Lemma Bmax : Rabs (val vmax) <= bpow radix2 900. Proof. apply Rle_trans with (1 := Bmax9), bpow_le. lia. Qed.
Hypothesis Bdv : bpow radix2 (-900) <= val dv.
Notation q := ((val vmax - val vmin) / val dv).
Hypothesis Bq : 1 <= q <= bpow radix2 50.
Notation tol := (bpow radix2 (-48) * (Rabs (val vmin) + Rabs (val vmax)) + bpow radix2 (-1000)).
Lemma dv_pos : 0 < val dv. Proof. apply Rlt_le_trans with (2 := Bdv), bpow_gt_0. Qed.
Lemma dv_le : val dv <= val vmax - val vmin.
Proof. pose proof dv_pos. apply Rmult_le_reg_r with (/ val dv); [now apply Rinv_0_lt_compat|]. rewrite Rinv_r by lra. exact (proj1 Bq). Qed.
Lemma d_le : val vmax - val vmin <= Rabs (val vmin) + Rabs (val vmax).
Proof. pose proof (Rle_abs (val vmax)). pose proof (Rle_abs (- val vmin)) as H0. rewrite Rabs_Ropp in H0. lra. Qed.
Lemma d_le' : val vmax - val vmin <= bpow radix2 900.
Proof. pose proof d_le. change 900%Z with (1 + 899)%Z. rewrite bpow_plus. change (bpow radix2 1) with 2. lra. Qed.
Lemma weaken n : INR n <= q * (1 + bpow radix2 (-51)) + 1 -> (Z.of_nat n <= 2 ^ 53)%Z.
Proof.
  intros H. apply le_IZR. rewrite <- INR_IZR_INZ. change (IZR (2 ^ 53)) with (bpow radix2 53). change 53%Z with (3 + 50)%Z. rewrite bpow_plus. change (bpow radix2 3) with 8.
  destruct u_small as (U1 & _ & U2). pose proof u_pos. assert (1 <= bpow radix2 50) by (change 1 with (bpow radix2 0); apply bpow_le; lia). rewrite <- U1 in H. nra.
Qed.
Lemma small_dv : (val dv <= bpow radix2 900) -> 0 <= val dv <= bpow radix2 900. Proof. pose proof dv_pos. lra. Qed.
Lemma Bdv' : val dv <= bpow radix2 900. Proof. pose proof dv_le. pose proof d_le'. lra. Qed.
Lemma Bmin' : Rabs (val vmin) <= bpow radix2 1000. Proof. apply Rle_trans with (1 := Bmin), bpow_le. lia. Qed.
Lemma last_point n c e : (Z.of_nat n <= 2 ^ 53)%Z -> val dv * INR n <= 2 * (val vmax - val vmin) -> Rabs (val dv * INR n - (val vmax - val vmin) - c) <= e + bpow radix2 (-51) * (val vmax - val vmin) ->
  Rabs (val (step_point vmin dv n) - val vmax - c) <= e + tol.
Proof.
  intros HN H2 H. pose proof (step_err vmin dv Fmin Fdv Bmin' (small_dv Bdv') n HN) as E. set (p := val (step_point vmin dv n)) in *. set (a := val dv * INR n) in *. pose proof dv_le. pose proof dv_pos. pose proof d_le.
  assert (U : 8 * bpow radix2 (-51) = bpow radix2 (-48)) by (change 8 with (bpow radix2 3); rewrite <- bpow_plus; reflexivity). pose proof (bpow_gt_0 radix2 (-51)). rewrite <- U. set (w := bpow radix2 (-51)) in *.
  replace (p - val vmax - c) with ((p - (val vmin + a)) + (a - (val vmax - val vmin) - c)) by ring. apply Rle_trans with (1 := Rabs_triang _ _). pose proof (Rabs_pos (val vmin)). pose proof (Rabs_pos (val vmax)).
  assert (w * (Rabs (val vmin) + a) <= w * (3 * (Rabs (val vmin) + Rabs (val vmax)))) by (apply Rmult_le_compat_l; lra).
  assert (w * (val vmax - val vmin) <= w * (Rabs (val vmin) + Rabs (val vmax))) by (apply Rmult_le_compat_l; lra).
  assert (0 <= w * (Rabs (val vmin) + Rabs (val vmax))) by (apply Rmult_le_pos; lra). lra.
Qed.
Notation N := (grid_n vmin vmax dv).
Lemma N_le : (Z.of_nat N <= 2 ^ 53)%Z.
Proof. apply weaken. pose proof (trunc_count vmin vmax dv Fmin Fmax Bmin Bmax Bdv Bq) as (A & _). lra. Qed.
Lemma qd : q * val dv = val vmax - val vmin. Proof. pose proof dv_pos. field. lra. Qed.
(** truncating: the last point is between one step below [vmax] and [vmax], up to rounding *)
Lemma step_last : val vmax - val dv - tol <= val (step_point vmin dv N) <= val vmax + tol.
Proof.
  destruct (trunc_count vmin vmax dv Fmin Fmax Bmin Bmax Bdv Bq) as (A1 & A2). pose proof dv_pos as Hd. pose proof dv_le. pose proof qd as Q. destruct u_small as (U1 & _ & U2). pose proof u_pos.
  assert (W : 0 < bpow radix2 (-51) <= 1) by (rewrite <- U1; lra). set (w := bpow radix2 (-51)) in *.
  assert (B1 : val dv * INR N <= (val vmax - val vmin) * (1 + w)) by (rewrite <- Q; apply (Rmult_le_compat_l (val dv)) in A1; lra).
  assert (B2 : (val vmax - val vmin) * (1 - w) - val dv <= val dv * INR N) by (rewrite <- Q; apply Rlt_le, (Rmult_le_compat_l (val dv)) in A2; lra).
  assert (B3 : (val vmax - val vmin) * w <= val vmax - val vmin) by nra.
  pose proof (last_point N (- (val dv / 2)) (val dv / 2) N_le ltac:(lra)) as L.
  assert (G : Rabs (val dv * INR N - (val vmax - val vmin) - - (val dv / 2)) <= val dv / 2 + w * (val vmax - val vmin)) by (apply Rabs_le; lra).
  specialize (L G). apply Rabs_le_inv in L. lra.
Qed.
(** rounding: the last point is within half a step of [vmax] *)
Lemma round_last : let l := round_grid (vmin, vmax, dv) in Rabs (val (last l vmin) - val vmax) <= val dv / 2 + tol.
Proof.
  intros l. pose proof (round_count vmin vmax dv Fmin Fmax Bmin Bmax Bdv Bq) as A. unfold l, round_grid in *. set (n := Z.to_nat _) in *. rewrite map_length, seq_length, S_INR in A.
  rewrite seq_S, map_app. simpl map. rewrite last_last. simpl Nat.add.
  pose proof dv_pos as Hd. pose proof dv_le. pose proof qd as Q. destruct u_small as (U1 & _ & U2). pose proof u_pos.
  assert (W : 0 < bpow radix2 (-51) <= / 4) by (rewrite <- U1; lra). set (w := bpow radix2 (-51)) in *. apply Rabs_le_inv in A.
  assert (HN : (Z.of_nat n <= 2 ^ 53)%Z) by (apply weaken; fold w; lra).
  assert (B1 : val dv * INR n <= (val vmax - val vmin) * (1 + w) + val dv / 2) by (rewrite <- Q; destruct A as (_ & A); apply (Rmult_le_compat_l (val dv)) in A; lra).
  assert (B2 : (val vmax - val vmin) * (1 - w) - val dv / 2 <= val dv * INR n) by (rewrite <- Q; destruct A as (A & _); apply (Rmult_le_compat_l (val dv)) in A; lra).
  assert (B3 : (val vmax - val vmin) * w <= (val vmax - val vmin) * / 4) by (apply Rmult_le_compat_l; lra).
  pose proof (last_point n 0 (val dv / 2) HN ltac:(lra)) as L. rewrite !Rminus_0_r in L. apply L. fold w. apply Rabs_le. lra.
Qed.
(** dividing the range in [n] parts: the last point is [vmax] up to rounding *)
Hypothesis Q2 : 2 <= q.
Lemma N_pos : (0 < N)%nat.
Proof.
  destruct (trunc_count vmin vmax dv Fmin Fmax Bmin Bmax Bdv Bq) as (_ & A). destruct u_small as (U1 & _ & U2). pose proof u_pos. rewrite <- U1 in A.
  destruct N as [|k]; [exfalso; simpl INR in A; nra|lia].
Qed.
Lemma frac_last : Rabs (val (frac_point vmin (vmax [-] vmin) N N) - val vmax) <= tol.
Proof.
  pose proof dv_pos. pose proof dv_le. assert (Bd : Rabs (val vmax - val vmin) <= bpow radix2 900) by (rewrite Rabs_pos_eq by lra; apply d_le').
  destruct (minus_ok vmax vmin 900 Fmax Fmin ltac:(lia) Bd) as (F1 & V1).
  assert (Br : 0 <= val (vmax [-] vmin) <= bpow radix2 900).
  { rewrite V1. split; [apply rnd_nonneg; lra|]. apply Rle_trans with (1 := Rle_abs _), rnd_big; auto; lia. }
  pose proof (frac_err vmin _ Fmin F1 Bmin' Br N N N_pos (Nat.le_refl _) N_le) as E. pose proof N_pos as NP. apply (lt_INR 0) in NP. simpl INR in NP.
  replace (val (vmax [-] vmin) * INR N / INR N) with (val (vmax [-] vmin)) in E by (field; lra). set (p := val (frac_point _ _ _ _)) in *. rewrite V1 in E. pose proof (rnd_err' (val vmax - val vmin)) as Er. rewrite (Rabs_pos_eq (val vmax - val vmin)) in Er by lra. set (r := rnd (val vmax - val vmin)) in *.
  destruct u_small as (_ & U1 & U2). pose proof u_pos. pose proof eta_pos. pose proof eta_small. pose proof d_le.
  assert (K : 32 * u = bpow radix2 (-48)) by (change 32 with (bpow radix2 5); unfold u; rewrite <- bpow_plus; reflexivity). rewrite <- K. rewrite <- U1 in E. pose proof (Rabs_pos (val vmin)). pose proof (Rabs_pos (val vmax)). set (S0 := Rabs (val vmin) + Rabs (val vmax)) in *.
  assert (G : Rabs (p - val vmax) <= 8 * u * (Rabs (val vmin) + r) + bpow radix2 (-1000) + (u * (val vmax - val vmin) + eta)).
  { replace (p - val vmax) with ((p - (val vmin + r)) + (r - (val vmax - val vmin))) by ring. apply Rle_trans with (1 := Rabs_triang _ _). lra. }
  apply Rle_trans with (1 := G).
  assert (He : eta <= u * (val vmax - val vmin)).
  { apply Rle_trans with (u * bpow radix2 (-900)); [unfold u, eta; rewrite <- bpow_plus; apply bpow_le; lia|]. apply Rmult_le_compat_l; lra. }
  assert (Hu : u * (val vmax - val vmin) <= / 1000 * (val vmax - val vmin)) by (apply Rmult_le_compat_r; lra).
  assert (Hr : r <= 2 * (val vmax - val vmin)) by (pose proof (Rle_abs (r - (val vmax - val vmin))); lra).
  assert (u * (Rabs (val vmin) + r) <= u * (3 * S0)) by (apply Rmult_le_compat_l; unfold S0 in *; lra).
  assert (u * (val vmax - val vmin) <= u * S0) by (apply Rmult_le_compat_l; lra). assert (0 <= u * S0) by (apply Rmult_le_pos; unfold S0; lra). lra.
Qed.
End Whole.

(** literals are the binary64 numbers nearest to their decimal values *)
Lemma lit_ok a b : (Z.abs a <= 2 ^ 53)%Z -> (0 < b <= 2 ^ 53)%Z -> fin (f64_lit a b) /\ val (f64_lit a b) = round radix2 (FLT_exp (-1074) 53) ZnearestE (IZR a / IZR b).
Proof.
  intros Ha Hb. destruct (of_Z_ok a Ha) as (Fa & Va). destruct (of_Z_ok b ltac:(lia)) as (Fb & Vb). assert (1 <= IZR b) by (apply IZR_le; lia).
  assert (B : Rabs (val (f64_of_Z a) / val (f64_of_Z b)) <= bpow radix2 53).
  { rewrite Va, Vb. unfold Rdiv. rewrite Rabs_mult, (Rabs_pos_eq (/ IZR b)) by (left; apply Rinv_0_lt_compat; lra). assert (A : Rabs (IZR a) <= bpow radix2 53) by (rewrite <- abs_IZR; change (bpow radix2 53) with (IZR (2 ^ 53)); now apply IZR_le).
    pose proof (Rabs_pos (IZR a)). assert (0 < / IZR b <= 1) by (split; [apply Rinv_0_lt_compat; lra|rewrite <- Rinv_1; apply Rinv_le_contravar; lra]). nra. }
  destruct (div_ok (f64_of_Z a) (f64_of_Z b) 53 Fa ltac:(rewrite Vb; lra) ltac:(lia) B) as (F & V). split; [exact F|]. unfold f64_lit. rewrite V, Va, Vb. reflexivity.
Qed.
(** the label in MeV of any temperature *)
Lemma label_near t : fin t -> 0 <= val t <= bpow radix2 20 -> 1000 * val t * (1 - bpow radix2 (-53)) - bpow radix2 (-1075) - 1 < IZR (mev_label t) <= 1000 * val t * (1 + bpow radix2 (-53)) + bpow radix2 (-1075).
Proof.
  intros Ft Bt. destruct (of_Z_ok 1000 ltac:(lia)) as (F1 & V1). destruct (lit_ok 1000 1 ltac:(lia) ltac:(lia)) as (Fl & Vl).
  assert (Vl' : val (f64_lit 1000 1) = 1000).
  { rewrite Vl. replace (IZR 1000 / IZR 1) with (val (f64_of_Z 1000)) by (rewrite V1; field). transitivity (val (f64_of_Z 1000)); [apply (rnd_val (f64_of_Z 1000))|exact V1]. }
  assert (B : 0 <= val t * val (f64_lit 1000 1) <= bpow radix2 30).
  { rewrite Vl'. split; [lra|]. change 30%Z with (10 + 20)%Z. rewrite bpow_plus. change (bpow radix2 10) with 1024. lra. }
  destruct (mult_ok t (f64_lit 1000 1) 30 Ft Fl ltac:(lia) ltac:(rewrite Rabs_pos_eq; lra)) as (F & V). rewrite Vl' in *. 
  pose proof (rnd_err (val t * 1000)) as E. rewrite (Rabs_pos_eq (val t * 1000)) in E by lra. rewrite <- V in E.
  assert (R0 : 0 <= val (t [*] f64_lit 1000 1) <= bpow radix2 30). { rewrite V. split; [apply rnd_nonneg; lra|]. apply Rle_trans with (1 := Rle_abs _), rnd_big; [lia|rewrite Rabs_pos_eq; lra]. }
  unfold mev_label. set (x := t [*] f64_lit 1000 1) in *.
  pose proof (Btrunc_correct 53 1024 eq_refl x) as T. fold (val x) in T. rewrite round_FIX_IZR in T. apply eq_IZR in T. rewrite Ztrunc_floor in T by lra.
  assert (Z0 : (0 <= Zfloor (val x))%Z) by (apply Zfloor_lub; lra).
  assert (Z1 : (Zfloor (val x) <= 2 ^ 30)%Z). { apply le_IZR. apply Rle_trans with (1 := Zfloor_lb _). exact (proj2 R0). }
  assert (E' : f64_as_uint 32 x = Zfloor (val x)).
  { assert (2 ^ 30 < 2 ^ 32 - 1)%Z by reflexivity. clearbody x. destruct x as [s|s|s pl Hpl|s m e Hm]; try discriminate F; unfold f64_as_uint; rewrite T; rewrite Z.max_r by lia; apply Z.min_r; lia. }
  rewrite E'. pose proof (Zfloor_lb (val x)). pose proof (Zfloor_ub (val x)). apply Rabs_le_inv in E. lra.
Qed.
