(** * C95: thermal distributions in binary64 for all arguments *)
From Coq Require Import ZArith Reals Psatz Lia List Bool.
From Flocq Require Import Core IEEE754.BinarySingleNaN IEEE754.Binary IEEE754.Bits.
From Verif Require Import MFloat MGrid MFermi MDistr64 SpecGrid SpecFermi SpecDistr64 PGrid PGrid2 PGrid3 PFerm64 PFerm64b PFerm64d.
Open Scope R_scope.

Notation inf := (Binary.B754_infinity 53 1024 false).
Lemma one_val : fin f64_one /\ val f64_one = 1. Proof. exact (lit_int 1 ltac:(simpl; lia)). Qed.
Lemma one_fin : exists m e H, f64_one = Binary.B754_finite 53 1024 false m e H.
Proof.
  assert (Q : is_float f64_one (2 ^ 52) (-52) = true) by (vm_compute; reflexivity). destruct f64_one as [s|s|s pl H|s m e H]; try discriminate. destruct s; [discriminate|]. eauto.
Qed.
Lemma fin_nn x : fin x -> is_nan 53 1024 x = false. Proof. destruct x; [reflexivity|reflexivity|discriminate|reflexivity]. Qed.
Lemma val_lt x : Rabs (val x) < bpow radix2 1024. Proof. apply abs_B2R_lt_emax. Qed.
Lemma pos_sign x : fin x -> 0 < val x -> Bsign 53 1024 x = false.
Proof.
  destruct x as [s|s|s pl H|s m e H]; try discriminate; [unfold val; simpl; lra|]. intros _ P. destruct s; auto. exfalso. unfold val in P. simpl in P. unfold F2R in P. simpl in P.
  assert (IZR (Z.neg m) < 0) by (apply IZR_lt; lia). pose proof (bpow_gt_0 radix2 e). nra.
Qed.
Lemma B2FF_inf x s : B2FF 53 1024 x = F754_infinity s -> x = Binary.B754_infinity 53 1024 s.
Proof. destruct x; simpl; intros Q; try discriminate. now inversion Q. Qed.
(** the operations never produce NaN from numbers, apart from inf - inf, 0 * inf, 0 / 0 and inf / inf *)
Lemma minus_any x y : fin x -> fin y -> ~ isNaN (x [-] y).
Proof.
  intros Fx Fy. pose proof (Bminus_correct 53 1024 eq_refl eq_refl binop_nan_pl64 mode_NE x y Fx Fy) as C. destruct (Rlt_bool _ _) in C.
  - destruct C as (_ & C & _). change (b64_minus mode_NE x y) with (Bminus 53 1024 eq_refl eq_refl binop_nan_pl64 mode_NE x y). unfold isNaN. destruct (Bminus _ _ _ _ _ _ x y); simpl in *; congruence.
  - destruct C as (C & _). change (b64_minus mode_NE x y) with (Bminus 53 1024 eq_refl eq_refl binop_nan_pl64 mode_NE x y). unfold isNaN. rewrite (B2FF_inf _ (Bsign 53 1024 x) C). discriminate.
Qed.
Lemma mult_any x b : ~ isNaN x -> fin b -> 0 < val b -> ~ isNaN (x [*] b) /\ (nonneg x -> nonneg (x [*] b)).
Proof.
  intros Nx Fb Pb. destruct (is_finite 53 1024 x) eqn:Fx.
  - pose proof (Bmult_correct 53 1024 eq_refl eq_refl binop_nan_pl64 mode_NE x b) as C. change (b64_mult mode_NE x b) with (Bmult 53 1024 eq_refl eq_refl binop_nan_pl64 mode_NE x b). destruct (Rlt_bool _ _) in C.
    + destruct C as (V & F & _). rewrite Fx in F. unfold fin in Fb. rewrite Fb in F. split.
      * unfold isNaN. destruct (Bmult _ _ _ _ _ _ x b); simpl in *; congruence.
      * intros [Q|(_ & Q)]; [rewrite Q in Fx; discriminate|]. right. split; [exact F|]. unfold val at 1. rewrite V. apply rnd_nonneg. fold (val x) (val b). apply Rmult_le_pos; lra.
    + split; [unfold isNaN; rewrite (B2FF_inf _ _ C); discriminate|]. intros [Q|(_ & Q)]; [rewrite Q in Fx; discriminate|].
      left. rewrite (B2FF_inf _ _ C). f_equal. rewrite (pos_sign b Fb Pb). destruct x as [s|s|s pl H|s m e H]; try discriminate; [|destruct s; [|reflexivity]].
      * exfalso. destruct b as [s'|s'|s' pl' H'|s' m' e' H']; discriminate.
      * exfalso. unfold val in Q. simpl in Q. unfold F2R in Q. simpl in Q. assert (IZR (Z.neg m) < 0) by (apply IZR_lt; lia). pose proof (bpow_gt_0 radix2 e). nra.
  - pose proof (pos_sign b Fb Pb) as Sb. destruct x as [s|s|s pl H|s m e H]; try discriminate; [|exfalso; apply Nx; reflexivity].
    destruct b as [s'|s'|s' pl' H'|s' m' e' H']; try discriminate; [unfold val in Pb; simpl in Pb; lra|]. simpl in Sb. subst s'. simpl. split; [discriminate|]. intros [Q|(Q & _)]; [|discriminate]. inversion Q. left. reflexivity.
Qed.
Definition least (c : R) (x : F64) : Prop := x = inf \/ fin x /\ c <= val x.
Lemma plus_one e : nonneg e -> least 1 (e [+] f64_one).
Proof.
  destruct one_fin as (m & k & H & E1), one_val as (F1 & V1). intros [->|(Fe & Pe)]; [rewrite E1; left; reflexivity|].
  pose proof (Bplus_correct 53 1024 eq_refl eq_refl binop_nan_pl64 mode_NE e f64_one Fe F1) as C. change (b64_plus mode_NE e f64_one) with (Bplus 53 1024 eq_refl eq_refl binop_nan_pl64 mode_NE e f64_one). destruct (Rlt_bool _ _) in C.
  - destruct C as (V & F & _). right. split; [exact F|]. unfold val. rewrite V. fold (val e) (val f64_one). rewrite <- V1. rewrite <- (rnd_val f64_one) at 1. apply rnd_mono. lra.
  - destruct C as (C & S). left. rewrite (B2FF_inf _ _ C), S, (pos_sign f64_one F1) by lra. reflexivity.
Qed.
Lemma inv_least x : least 1 x -> fin (f64_inv x) /\ 0 <= val (f64_inv x) <= 1.
Proof.
  destruct one_fin as (m & k & H & E1), one_val as (F1 & V1). unfold f64_inv. intros [->|(Fx & Px)].
  - rewrite E1. simpl. split; [reflexivity|]. unfold val. simpl. lra.
  - assert (I : 0 <= val f64_one / val x <= 1). { rewrite V1. unfold Rdiv. rewrite Rmult_1_l. split; [left; apply Rinv_0_lt_compat; lra|]. rewrite <- Rinv_1. apply Rinv_le_contravar; lra. }
    destruct (div_ok f64_one x 0 F1) as (F & V); [lra|lia|rewrite Rabs_pos_eq by lra; apply I|]. split; auto. rewrite V. split; [apply rnd_nonneg; lra|].
    rewrite <- V1. rewrite <- (rnd_val f64_one) at 2. apply rnd_mono. rewrite V1 in *. lra.
Qed.
Lemma fermi_ok Ex en beta mu : exp_nonneg Ex -> fin en -> fin beta -> fin mu -> 0 < val beta ->
  fin (fermi_distribution_f64 Ex en beta mu) /\ 0 <= val (fermi_distribution_f64 Ex en beta mu) <= 1.
Proof. intros HE Fe Fb Fm Pb. apply inv_least, plus_one, HE, mult_any; auto. now apply minus_any. Qed.
Lemma fin_num x : fin x -> ~ isNaN x. Proof. intros F Q. unfold isNaN in Q. rewrite fin_nn in Q by auto. discriminate. Qed.
Lemma fermi_zc_ok Ex en beta : exp_nonneg Ex -> fin en -> fin beta -> 0 < val beta ->
  fin (fermi_distribution_zero_chempot_f64 Ex en beta) /\ 0 <= val (fermi_distribution_zero_chempot_f64 Ex en beta) <= 1.
Proof. intros HE Fe Fb Pb. apply inv_least, plus_one, HE, mult_any; auto. now apply fin_num. Qed.
Lemma opp_ok x : fin x -> fin (b64_opp x) /\ val (b64_opp x) = - val x.
Proof. intros F. unfold b64_opp, fin, val. rewrite is_finite_Bopp, B2R_Bopp. auto. Qed.
Lemma plus_unit x y : fin x -> fin y -> 0 <= val x <= 1 -> 0 <= val y <= 1 -> fin (x [+] y) /\ val (x [+] y) = rnd (val x + val y) /\ 0 <= val (x [+] y) <= 2.
Proof.
  intros Fx Fy Hx Hy. destruct (plus_ok x y 1 Fx Fy ltac:(lia)) as (F & V); [rewrite Rabs_pos_eq by lra; change (bpow radix2 1) with 2; lra|]. split; auto. split; auto. rewrite V. split; [apply rnd_nonneg; lra|].
  apply Rle_trans with (1 := Rle_abs _). change 2 with (bpow radix2 1). apply rnd_big; [lia|]. rewrite Rabs_pos_eq by lra. change (bpow radix2 1) with 2. lra.
Qed.
Lemma double_ok Ex en beta mu : exp_nonneg Ex -> fin en -> fin beta -> fin mu -> 0 < val beta ->
  fin (fermi_distribution_double_f64 Ex en beta mu) /\ 0 <= val (fermi_distribution_double_f64 Ex en beta mu) <= 2 /\
  val (fermi_distribution_double_f64 Ex en beta mu) = to_f64 (val (fermi_distribution_f64 Ex en beta mu) + val (fermi_distribution_f64 Ex en beta (b64_opp mu))) /\
  val (fermi_distribution_double_f64 Ex en beta (b64_opp mu)) = val (fermi_distribution_double_f64 Ex en beta mu).
Proof.
  intros HE Fe Fb Fm Pb. destruct (opp_ok mu Fm) as (Fo & Vo).
  destruct (fermi_ok Ex en beta mu HE Fe Fb Fm Pb) as (F1 & R1), (fermi_ok Ex en beta (b64_opp mu) HE Fe Fb Fo Pb) as (F2 & R2).
  destruct (plus_unit _ _ F1 F2 R1 R2) as (F & V & B), (plus_unit _ _ F2 F1 R2 R1) as (_ & V' & _).
  split; [exact F|split; [exact B|split; [exact V|]]]. unfold fermi_distribution_double_f64.
  assert (OO : b64_opp (b64_opp mu) = mu). { unfold b64_opp. apply Bopp_involutive. now apply fin_nn. }
  rewrite OO. change (val (fermi_distribution_f64 Ex en beta (b64_opp mu) [+] fermi_distribution_f64 Ex en beta mu) = val (fermi_distribution_f64 Ex en beta mu [+] fermi_distribution_f64 Ex en beta (b64_opp mu))).
  rewrite V, V', Rplus_comm. reflexivity.
Qed.
Lemma gt_cases x y : fin x -> fin y -> f64_gt x y = true /\ val y < val x \/ f64_gt x y = false /\ val x <= val y.
Proof. intros Fx Fy. unfold f64_gt, b64_compare. rewrite (Bcompare_correct 53 1024 x y Fx Fy). fold (val x) (val y). destruct (Rcompare_spec (val x) (val y)); [right|right|left]; split; auto; lra. Qed.
Lemma zero_val : fin f64_zero /\ val f64_zero = 0.
Proof. destruct (of_nat_ok 0 ltac:(simpl; lia)) as (F & V). auto. Qed.
Lemma zt_ok en mu : fin en -> fin mu -> fin (fermi_distribution_zero_temp_f64 en mu) /\
  (val mu < val en -> val (fermi_distribution_zero_temp_f64 en mu) = 0) /\ (val en <= val mu -> val (fermi_distribution_zero_temp_f64 en mu) = 1).
Proof. intros Fe Fm. unfold fermi_distribution_zero_temp_f64. destruct one_val, zero_val. destruct (gt_cases en mu Fe Fm) as [(-> & Q)|(-> & Q)]; repeat split; auto; intros; lra. Qed.
Lemma rnd_int z : (Z.abs z <= 2 ^ 53)%Z -> rnd (IZR z) = IZR z.
Proof. intros H. destruct (of_Z_ok z H) as (_ & V). rewrite <- V. apply rnd_val. Qed.
Lemma zt2_ok en mu : fin en -> fin mu -> fin (fermi_distribution_double_zero_temp_f64 en mu) /\
  val (fermi_distribution_double_zero_temp_f64 en mu) = val (fermi_distribution_zero_temp_f64 en mu) + val (fermi_distribution_zero_temp_f64 en (b64_opp mu)).
Proof.
  intros Fe Fm. destruct (opp_ok mu Fm) as (Fo & Vo). destruct (zt_ok en mu Fe Fm) as (F1 & A1 & B1), (zt_ok en (b64_opp mu) Fe Fo) as (F2 & A2 & B2).
  assert (V1 : val (fermi_distribution_zero_temp_f64 en mu) = 0 \/ val (fermi_distribution_zero_temp_f64 en mu) = 1) by (destruct (Rle_lt_dec (val en) (val mu)); auto).
  assert (V2 : val (fermi_distribution_zero_temp_f64 en (b64_opp mu)) = 0 \/ val (fermi_distribution_zero_temp_f64 en (b64_opp mu)) = 1) by (destruct (Rle_lt_dec (val en) (val (b64_opp mu))); auto).
  destruct (plus_unit _ _ F1 F2) as (F & V & _); [destruct V1; lra|destruct V2; lra|]. split; [exact F|]. unfold fermi_distribution_double_zero_temp_f64. rewrite V.
  destruct V1 as [-> | ->], V2 as [-> | ->]; [replace (0 + 0) with 0 by ring; apply (rnd_int 0)|replace (0 + 1) with 1 by ring; apply (rnd_int 1)|replace (1 + 0) with 1 by ring; apply (rnd_int 1)|replace (1 + 1) with 2 by ring; apply (rnd_int 2)]; simpl; lia.
Qed.
(** Bose *)
Lemma minus_one e : least 1 e -> e [-] f64_one = inf \/ fin (e [-] f64_one) /\ val (e [-] f64_one) = rnd (val e - 1) /\ 0 <= val (e [-] f64_one) /\ (val (e [-] f64_one) = 0 -> Bsign 53 1024 (e [-] f64_one) = false).
Proof.
  destruct one_fin as (m & k & H & E1), one_val as (F1 & V1). intros [->|(Fe & Pe)]; [rewrite E1; left; reflexivity|right].
  pose proof (Bminus_correct 53 1024 eq_refl eq_refl binop_nan_pl64 mode_NE e f64_one Fe F1) as C. change (b64_minus mode_NE e f64_one) with (Bminus 53 1024 eq_refl eq_refl binop_nan_pl64 mode_NE e f64_one). fold (val e) (val f64_one) in C. rewrite V1 in C.
  change (round radix2 fexp64 (round_mode mode_NE) (val e - 1)) with (rnd (val e - 1)) in C.
  assert (N : 0 <= rnd (val e - 1)) by (apply rnd_nonneg; lra).
  rewrite Rlt_bool_true in C. 2:{ rewrite Rabs_pos_eq by auto. apply Rle_lt_trans with (2 := val_lt e). rewrite Rabs_pos_eq by lra. rewrite <- (rnd_val e). apply rnd_mono. rewrite rnd_val. lra. }
  destruct C as (V & F & S). split; [exact F|]. split; [exact V|]. split; [unfold val at 1; rewrite V; exact N|].
  intros Z. unfold val in Z at 1. rewrite V in Z. rewrite S. destruct (Rcompare_spec (val e - 1) 0) as [Q|Q|Q]; [lra| |reflexivity]. rewrite (pos_sign e Fe) by lra. reflexivity.
Qed.
Lemma inv_nonneg x : fin x -> 0 <= val x -> (val x = 0 -> Bsign 53 1024 x = false) -> nonneg (f64_inv x) /\ (val x = 0 -> f64_inv x = inf).
Proof.
  destruct one_fin as (m & k & H & E1), one_val as (F1 & V1). intros Fx Px Sx. unfold f64_inv. destruct (Req_dec (val x) 0) as [Z|Z].
  - assert (Q : f64_one [/] x = inf). { specialize (Sx Z). rewrite E1. destruct x as [s|s|s pl H'|s m' e' H']; try discriminate; simpl in Sx; subst; [reflexivity|]. exfalso. unfold val in Z. simpl in Z. apply eq_0_F2R in Z. discriminate. }
    split; auto. left. exact Q.
  - split; [|intros; contradiction]. pose proof (Bdiv_correct 53 1024 eq_refl eq_refl binop_nan_pl64 mode_NE f64_one x Z) as C. change (b64_div mode_NE f64_one x) with (Bdiv 53 1024 eq_refl eq_refl binop_nan_pl64 mode_NE f64_one x). destruct (Rlt_bool _ _) in C.
    + destruct C as (V & F & _). right. split; [unfold fin; rewrite F; exact F1|]. unfold val. rewrite V. apply rnd_nonneg. fold (val f64_one) (val x). rewrite V1. unfold Rdiv. rewrite Rmult_1_l. left. apply Rinv_0_lt_compat. lra.
    + left. rewrite (B2FF_inf _ _ C), (pos_sign f64_one F1), (pos_sign x Fx) by lra. reflexivity.
Qed.
Lemma inv_inf : fin (f64_inv inf) /\ val (f64_inv inf) = 0.
Proof. destruct one_fin as (m & k & H & E1). unfold f64_inv. rewrite E1. split; reflexivity. Qed.
Lemma bose_from e : least 1 e -> nonneg (f64_inv (e [-] f64_one)) /\ (fin e -> val e = 1 -> f64_inv (e [-] f64_one) = inf).
Proof.
  intros L. destruct (minus_one e L) as [Q|(F & V & P & S)].
  - rewrite Q. destruct inv_inf as (A & B). split; [right; split; [exact A|rewrite B; lra]|]. intros Fe Ve. exfalso.
    destruct one_val as (F1 & V1). destruct (minus_ok e f64_one 0 Fe F1 ltac:(lia)) as (F & _); [rewrite Ve, V1; replace (1 - 1) with 0 by ring; rewrite Rabs_R0; apply bpow_ge_0|]. rewrite Q in F. discriminate.
  - destruct (inv_nonneg _ F P S) as (A & B). split; auto. intros _ Ve. apply B. rewrite V, Ve. replace (1 - 1) with 0 by ring. apply rnd_0.
Qed.
Lemma bose_ok Ex en beta : exp_least_one Ex -> fin en -> fin beta -> 0 <= val en -> 0 < val beta -> nonneg (bose_distribution_zero_chempot_f64 Ex en beta).
Proof. intros HE Fe Fb Pe Pb. apply bose_from. apply HE. apply mult_any; auto; [now apply fin_num|right; auto]. Qed.
Lemma bose_mu_ok Ex en beta mu : exp_least_one Ex -> fin en -> fin beta -> fin mu -> val mu <= val en -> 0 < val beta -> nonneg (bose_distribution_f64 Ex en beta mu).
Proof.
  intros HE Fe Fb Fm Pe Pb. apply bose_from. apply HE. assert (N : nonneg (en [-] mu)).
  { pose proof (Bminus_correct 53 1024 eq_refl eq_refl binop_nan_pl64 mode_NE en mu Fe Fm) as C. change (b64_minus mode_NE en mu) with (Bminus 53 1024 eq_refl eq_refl binop_nan_pl64 mode_NE en mu). fold (val en) (val mu) in C. destruct (Rlt_bool _ _) eqn:B in C.
    - destruct C as (V & F & _). right. split; [exact F|]. unfold val at 1. rewrite V. apply rnd_nonneg. lra.
    - destruct C as (C & S). left. rewrite (B2FF_inf _ _ C). f_equal. destruct (Bsign 53 1024 en) eqn:Se; auto. exfalso. symmetry in S. apply negb_true_iff in S.
      assert (val en <= 0). { destruct (Rle_lt_dec (val en) 0); auto. rewrite pos_sign in Se by auto. discriminate. }
      assert (0 <= val mu). { destruct (Rle_lt_dec 0 (val mu)) as [|Q]; auto. exfalso. destruct (opp_ok mu Fm) as (Fo & Vo). pose proof (pos_sign _ Fo ltac:(lra)) as T. unfold b64_opp in T. rewrite Bsign_Bopp in T by (now apply fin_nn). rewrite S in T. discriminate. }
      assert (Z : val en - val mu = 0) by lra. change (round radix2 fexp64 (round_mode mode_NE) (val en - val mu)) with (rnd (val en - val mu)) in B. rewrite Z, rnd_0, Rabs_R0, Rlt_bool_true in B by apply bpow_gt_0. discriminate. }
  apply mult_any; auto. now apply minus_any.
Qed.
