(** * The project's Python reference formulas (/repo/tests/numerics.py)

    The numbers hard-coded in the Rust unit tests were printed by this script.
    Its functions are transcribed here for complex frequencies and masses, so
    that the Rust functions can be compared with them at every input and not
    only at the printed points. The model is not used: this file only needs the
    elementary complex functions ([Csqrt], [Cexp], [Cln], from Num.v).

    Two functions of the script replace [om] by [om + 1E-16] in order to be
    callable at [om = 0]; this rounding-level shift is left out, and the
    comparison is made at [om <> 0]. *)
From Coq Require Import Reals List.
From Coquelicot Require Import Coquelicot.
From Verif Require Import Num.
Import List ListNotations.
Open Scope R_scope.
Open Scope C_scope.

Definition sq (z : C) : C := z * z.
Definition cu (z : C) : C := z * z * z.
Definition n_ (n : R) : C := RtoC n.
Arguments n_ _%R.
Definition jj (z : C) : C := z * Ci.
Definition npi2 : C := sq (RtoC PI).

(** ** Vacuum (lines 10-46) *)

(* 10-18 *)
Definition py_f (s : C) : C :=
  let la := (n_ 3 * cu s - n_ 34 * sq s - n_ 28 * s - n_ 24) / s * Csqrt ((s + n_ 4) / s)
            * Cln ((Csqrt (s + n_ 4) - Csqrt s) / (Csqrt (s + n_ 4) + Csqrt s)) in
  let lb := n_ 2 * sq (n_ 1 + s) / cu s * (n_ 3 * cu s - n_ 20 * sq s + n_ 11 * s - n_ 2) * Cln (n_ 1 + s) in
  let lc := (n_ 2 - n_ 3 * sq s) * Cln s in
  let ra := - (n_ 4 + s) / s * (sq s - n_ 20 * s + n_ 12) in
  let rb := n_ 2 * sq (n_ 1 + s) / sq s * (sq s - n_ 10 * s + n_ 1) in
  let rc := n_ 2 / sq s + n_ 2 - sq s in
  (la + lb + lc + ra + rb + rc) / n_ 72 + n_ 5 / (n_ 8 * s).

(* 21-22 *)
Definition py_f_xi (s : C) : C :=
  n_ 1 / (n_ 4 * s) - (n_ 2 * s * Cln s - n_ 2 * (n_ 1 - s) * (n_ 1 - cu s) / cu s * Cln (n_ 1 + s)
                       + (n_ 3 * sq s - n_ 3 * s + n_ 2) / sq s) / n_ 12.

(* 25-26 *)
Definition py_f_q (s : C) : C :=
  n_ 4 / n_ 9 * ((s - n_ 2) / (n_ 2 * s) * Csqrt ((n_ 4 + s) / s)
                 * Cln ((Csqrt (s + n_ 4) - Csqrt s) / (Csqrt (s + n_ 4) + Csqrt s)) - n_ 2 / s + n_ 5 / n_ 6).

(* 29-30 *)
Definition py_f_q_crossed (s : C) : C :=
  n_ 4 / n_ 9 * ((sq s + n_ 2 * s + n_ 16) / (n_ 2 * s * (n_ 4 + s)) * Csqrt ((n_ 4 + s) / s)
                 * Cln ((Csqrt (s + n_ 4) - Csqrt s) / (Csqrt (s + n_ 4) + Csqrt s)) + n_ 4 / s - n_ 1 / n_ 6).

(* 33-34; without the overall factor 1/12 of the ghost function *)
Definition py_g (s : C) : C :=
  sq (n_ 1 + s) * (n_ 2 * s - n_ 1) / sq s * Cln (n_ 1 + s) - n_ 2 * s * Cln s + n_ 1 / s + n_ 2.

(* 37-38 *)
Definition py_ym_gluon_dressing_inv (s xi f0 : C) : C := py_f s + xi * py_f_xi s + f0.
(* 41-42, with the script's nq/nc as a parameter *)
Definition py_qcd_gluon_dressing_inv (ratio s mq xi f0 : C) : C :=
  py_ym_gluon_dressing_inv s xi f0 + ratio * py_f_q (s / sq mq).
(* 45-46 *)
Definition py_qcd_gluon_dressing_crossed_inv (ratio s mq xi f0 : C) : C :=
  py_ym_gluon_dressing_inv s xi f0 + ratio * py_f_q_crossed (s / sq mq).

(** ** Distributions (lines 49-62) *)
Definition py_en (q m : C) : C := Csqrt (sq q + sq m).
Definition py_bose (q m beta : C) : C := n_ 1 / (Cexp (beta * py_en q m) - n_ 1).
Definition py_fermi (q m beta mu : C) : C := n_ 1 / (Cexp (beta * (py_en q m - mu)) + n_ 1).
Definition py_fermi_double (q m beta mu : C) : C := py_fermi q m beta mu + py_fermi q m beta (- mu).

(** ** Tadpoles (lines 65-82 and 205-236) *)
Definition py_j_m_i (q m beta : C) : C := sq q * py_bose q m beta / (py_en q m * n_ 2 * npi2).
Definition py_j_m_l_i (q m beta : C) : C := - sq q * py_bose q m beta * py_en q m / (n_ 2 * npi2).
Definition py_j_m_t_i (q m beta : C) : C := sq (sq q) * py_bose q m beta / (py_en q m * n_ 6 * npi2).
Definition py_d_j_m_i (q m beta : C) : C := - py_bose q m beta / (py_en q m * n_ 4 * npi2).
Definition py_bosm (q m beta : C) : C := n_ 1 / (Cexp (- py_en q m * beta) - n_ 1).
Definition py_d2_j_m_i (q m beta : C) : C :=
  (py_bose q m beta / cu (py_en q m) - beta * py_bose q m beta * py_bosm q m beta / sq (py_en q m)) / (n_ 8 * npi2).
Definition py_d_j_m_l_i (q m beta : C) : C := py_en q m * py_bose q m beta / (n_ 4 * npi2).
Definition py_jnnm (q m beta : C) : C := py_bose q m beta * py_bosm q m beta / (n_ 8 * npi2).
Definition py_d2_j_m_l_i (q m beta : C) : C := - py_d_j_m_i q m beta / n_ 2 + beta * py_jnnm q m beta.
Definition py_d_j_m_t_i (q m beta : C) : C := - py_j_m_i q m beta / n_ 2.
Definition py_d2_j_m_t_i (q m beta : C) : C := - py_d_j_m_i q m beta / n_ 2.

(** The nine tadpoles, in the order of [tadpoles] of SpecInteg.v *)
Definition py_tadpoles (q m beta : C) : list C :=
  [ py_j_m_i q m beta; py_j_m_l_i q m beta; py_j_m_t_i q m beta;
    py_d_j_m_i q m beta; py_d_j_m_l_i q m beta; py_d_j_m_t_i q m beta;
    py_d2_j_m_i q m beta; py_d2_j_m_l_i q m beta; py_d2_j_m_t_i q m beta ].

(** ** Logarithms (lines 85-132) *)

(* 85-90 *)
Definition py_tlog (q om p en delta : C) : C :=
  let r := sq om + sq p + jj (n_ 2) * en * om + delta in
  let r0 := n_ 2 * q * p in
  let ru := r + r0 in
  let rd := r - r0 in
  Cln (ru / rd).

(* 93-95 *)
Definition py_tlog_1o (q om en delta : C) : C :=
  let r := sq om + jj (n_ 2) * en * om + delta in
  n_ 4 * q / r.

(* 98-103 *)
Definition py_tlog_l (q om p m1 m2 : C) : C :=
  let en1 := Csqrt (q * q + m1 * m1) in
  let en2 := Csqrt (q * q + m2 * m2) in
  let z := om + jj (n_ 1) * en2 in
  let delta := m1 * m1 - m2 * m2 in
  sq (sq z + sq en1 + sq p * (n_ 2 * z / om - n_ 1)) * py_tlog q om p en2 delta.

(* 111-112 *)
Definition py_tlog_l2 (q om p en delta : C) : C :=
  sq (sq om + jj (n_ 2) * om * en + delta + sq p * (jj (n_ 2) * en / om + n_ 1)) * py_tlog q om p en delta.

(* 115-119 *)
Definition py_tlog_l3 (q om p en delta : C) : C :=
  let m12 := delta + sq en - sq q in
  let en1 := Csqrt (q * q + m12) in
  let z := om + jj (n_ 1) * en in
  sq (sq z + sq en1 + sq p * (n_ 2 * z / om - n_ 1)) * py_tlog q om p en delta.

(* 122-127 *)
Definition py_tlog_t (q om p en delta : C) : C :=
  let r := sq om + sq p + jj (n_ 2) * en * om + delta in
  let r0 := n_ 2 * q * p in
  let ru := r + r0 in
  let rd := r - r0 in
  ru * rd * py_tlog q om p en delta.

(** ** Bubbles (lines 135-328) *)

(* 135-142 *)
Definition py_i_m_m_i (q om p m1 m2 beta : C) : C :=
  let delta1 := sq m2 - sq m1 in
  let delta2 := sq m1 - sq m2 in
  let t1 := py_bose q m1 beta / py_en q m1
            * (py_tlog q om p (py_en q m1) delta1 + py_tlog q (- om) p (py_en q m1) delta1) / n_ 2 in
  let t2 := py_bose q m2 beta / py_en q m2
            * (py_tlog q om p (py_en q m2) delta2 + py_tlog q (- om) p (py_en q m2) delta2) / n_ 2 in
  (t1 + t2) * q / p / (n_ 8 * npi2).

(* 145-152 *)
Definition py_i_m_m_i_zp (q om m1 m2 beta : C) : C :=
  let delta1 := sq m2 - sq m1 in
  let delta2 := sq m1 - sq m2 in
  let t1 := py_bose q m1 beta / py_en q m1
            * (py_tlog_1o q om (py_en q m1) delta1 + py_tlog_1o q (- om) (py_en q m1) delta1) / n_ 2 in
  let t2 := py_bose q m2 beta / py_en q m2
            * (py_tlog_1o q om (py_en q m2) delta2 + py_tlog_1o q (- om) (py_en q m2) delta2) / n_ 2 in
  (t1 + t2) * q / (n_ 8 * npi2).

(* 155-163 *)
Definition py_i_m_m_l_i (q om p m1 m2 beta : C) : C :=
  let delta1 := sq m2 - sq m1 in
  let delta2 := sq m1 - sq m2 in
  let t1 := py_bose q m1 beta / py_en q m1
            * ((py_tlog_l q om p m2 m1 + py_tlog_l q (- om) p m2 m1) / n_ 2 - n_ 4 * q * p * (sq om + sq p + delta1)) in
  let t2 := py_bose q m2 beta / py_en q m2
            * ((py_tlog_l q om p m1 m2 + py_tlog_l q (- om) p m1 m2) / n_ 2 - n_ 4 * q * p * (sq om + sq p + delta2)) in
  sq om / (sq om + sq p) * (t1 + t2) * q / (cu p * n_ 32 * npi2).

(* 166-176 *)
Definition py_i_m_m_l_i_zp (q om m1 m2 beta : C) : C :=
  let delta := sq m2 - sq m1 in
  let en1 := py_en q m1 in
  let en2 := py_en q m2 in
  let r1p := n_ 1 / (om * om + jj (n_ 2) * om * en1 + delta) in
  let r1m := n_ 1 / (om * om - jj (n_ 2) * om * en1 + delta) in
  let r2p := n_ 1 / (om * om + jj (n_ 2) * om * en2 - delta) in
  let r2m := n_ 1 / (om * om - jj (n_ 2) * om * en2 - delta) in
  let t1 := py_bose q m1 beta / en1 * (r1p + r1m) / n_ 2 in
  let t2 := py_bose q m2 beta / en2 * (r2p + r2m) / n_ 2 in
  (t1 + t2) * sq (sq q) / (n_ 6 * npi2).

(* 179-188 *)
Definition py_i_m_m_t_i (q om p m1 m2 beta : C) : C :=
  let delta1 := sq m2 - sq m1 in
  let delta2 := sq m1 - sq m2 in
  let en1 := py_en q m1 in
  let en2 := py_en q m2 in
  let t1 := py_bose q m1 beta / en1
            * ((py_tlog_t q om p en1 delta1 + py_tlog_t q (- om) p en1 delta1) / n_ 2 - n_ 4 * q * p * (sq om + sq p + delta1)) in
  let t2 := py_bose q m2 beta / py_en q m2
            * ((py_tlog_t q om p en2 delta2 + py_tlog_t q (- om) p en2 delta2) / n_ 2 - n_ 4 * q * p * (sq om + sq p + delta2)) in
  - (t1 + t2) * q / (cu p * n_ 64 * npi2).

(* 191-202 *)
Definition py_i_m_m_t_i_zp (q om m1 m2 beta : C) : C :=
  let delta1 := sq m2 - sq m1 in
  let delta2 := sq m1 - sq m2 in
  let en1 := py_en q m1 in
  let en2 := py_en q m2 in
  let r1p := n_ 1 / (om * om + jj (n_ 2) * om * en1 + delta1) in
  let r1m := n_ 1 / (om * om - jj (n_ 2) * om * en1 + delta1) in
  let r2p := n_ 1 / (om * om + jj (n_ 2) * om * en2 + delta2) in
  let r2m := n_ 1 / (om * om - jj (n_ 2) * om * en2 + delta2) in
  let t1 := py_bose q m1 beta / en1 * (r1p + r1m) / n_ 2 in
  let t2 := py_bose q m2 beta / en2 * (r2p + r2m) / n_ 2 in
  (t1 + t2) * sq (sq q) / (n_ 6 * npi2).

(* 239-255 *)
Definition py_d_i_m_m_i (q om p m1 m2 beta : C) : C :=
  let z1 := om + jj (n_ 1) * py_en q m1 in
  let z1' := - om + jj (n_ 1) * py_en q m1 in
  let z2 := om + jj (n_ 1) * py_en q m2 in
  let z2' := - om + jj (n_ 1) * py_en q m2 in
  let x1 := - py_bose q m1 beta / py_en q m1
            * (n_ 1 / (sq z1 + sq (py_en (q + p) m2)) + n_ 1 / (sq z1 + sq (py_en (q - p) m2))
               + n_ 1 / (sq z1' + sq (py_en (q + p) m2)) + n_ 1 / (sq z1' + sq (py_en (q - p) m2))) / n_ 2 in
  let x2 := py_bose q m2 beta / py_en q m2
            * (n_ 1 / (sq z2 + sq (py_en (q + p) m1)) - n_ 1 / (sq z2 + sq (py_en (q - p) m1))
               + n_ 1 / (sq z2' + sq (py_en (q + p) m1)) - n_ 1 / (sq z2' + sq (py_en (q - p) m1))) / n_ 2 in
  let x3 := - py_bose q m1 beta / py_en q m1
            * (n_ 1 / (sq z1 + sq (py_en (q + p) m2)) - n_ 1 / (sq z1 + sq (py_en (q - p) m2))
               + n_ 1 / (sq z1' + sq (py_en (q + p) m2)) - n_ 1 / (sq z1' + sq (py_en (q - p) m2))) / n_ 2 in
  (x1 + (x2 + x3) * q / p) / (n_ 8 * npi2).

(* 258-268 *)
Definition py_d_i_m_m_i_zp (q om m1 m2 beta : C) : C :=
  let z1 := om + jj (n_ 1) * py_en q m1 in
  let z1' := - om + jj (n_ 1) * py_en q m1 in
  let z2 := om + jj (n_ 1) * py_en q m2 in
  let z2' := - om + jj (n_ 1) * py_en q m2 in
  let x1 := - py_bose q m1 beta / py_en q m1
            * (n_ 1 / (sq z1 + sq (py_en q m2)) + n_ 1 / (sq z1' + sq (py_en q m2))) / n_ 2 in
  let x2 := py_bose q m2 beta / py_en q m2
            * (n_ 1 / sq (sq z2 + sq (py_en q m1)) + n_ 1 / sq (sq z2' + sq (py_en q m1))) / n_ 2 in
  let x3 := - py_bose q m1 beta / py_en q m1
            * (n_ 1 / sq (sq z1 + sq (py_en q m2)) + n_ 1 / sq (sq z1' + sq (py_en q m2))) / n_ 2 in
  (x1 - n_ 2 * (x2 + x3) * q * q) / (n_ 4 * npi2).

(* 271-297 *)
Definition py_d_i_m_m_l_i (q om p m1 m2 beta : C) : C :=
  let bose1 := py_bose q m1 beta in
  let en1 := py_en q m1 in
  let z1p := om + jj (n_ 1) * en1 in
  let z1m := - om + jj (n_ 1) * en1 in
  let bose2 := py_bose q m2 beta in
  let en2 := py_en q m2 in
  let z2p := om + jj (n_ 1) * en2 in
  let z2m := - om + jj (n_ 1) * en2 in
  let t1 := - bose1 / en1
            * ((n_ 1 / (sq z1p + sq (p + q) + sq m2) + n_ 1 / (sq z1p + sq (p - q) + sq m2))
                 * sq (sq z1p + sq q + sq m2 + sq p * (n_ 2 * z1p / om - n_ 1))
               + (n_ 1 / (sq z1m + sq (p + q) + sq m2) + n_ 1 / (sq z1m + sq (p - q) + sq m2))
                 * sq (sq z1m + sq q + sq m2 + sq p * (- n_ 2 * z1m / om - n_ 1))) / n_ 4 in
  let t2 := bose1 / en1 * (sq om + sq p + sq m2 - sq m1) in
  let t3 := n_ 2 * sq q * (bose1 / en1 - bose2 / en2) in
  let t4 := q / p * (bose2 / en2
                       * ((sq z2p + sq q + sq m1 + sq p * (n_ 2 * z2p / om - n_ 1)) * py_tlog q om p en2 (sq m1 - sq m2)
                          + (sq z2m + sq q + sq m1 + sq p * (- n_ 2 * z2m / om - n_ 1)) * py_tlog q (- om) p en2 (sq m1 - sq m2))
                     - bose1 / en1
                       * ((sq z1p + sq q + sq m2 + sq p * (n_ 2 * z1p / om - n_ 1)) * py_tlog q om p en1 (sq m2 - sq m1)
                          + (sq z1m + sq q + sq m2 + sq p * (- n_ 2 * z1m / om - n_ 1)) * py_tlog q (- om) p en1 (sq m2 - sq m1))) / n_ 2 in
  let t5 := q / p * (bose2 / en2
                       * (sq (sq z2p + sq q + sq m1 + sq p * (n_ 2 * z2p / om - n_ 1))
                            * (n_ 1 / (sq z2p + sq (py_en (q + p) m1)) - n_ 1 / (sq z2p + sq (py_en (q - p) m1)))
                          + sq (sq z2m + sq q + sq m1 + sq p * (- n_ 2 * z2m / om - n_ 1))
                            * (n_ 1 / (sq z2m + sq (py_en (q + p) m1)) - n_ 1 / (sq z2m + sq (py_en (q - p) m1))))
                     - bose1 / en1
                       * (sq (sq z1p + sq q + sq m2 + sq p * (n_ 2 * z1p / om - n_ 1))
                            * (n_ 1 / (sq z1p + sq (py_en (q + p) m2)) - n_ 1 / (sq z1p + sq (py_en (q - p) m2)))
                          + sq (sq z1m + sq q + sq m2 + sq p * (- n_ 2 * z1m / om - n_ 1))
                            * (n_ 1 / (sq z1m + sq (py_en (q + p) m2)) - n_ 1 / (sq z1m + sq (py_en (q - p) m2))))) / n_ 4 in
  sq om / (sq om + sq p) * (t1 + t2 + t3 + t4 + t5) / (n_ 16 * npi2 * sq p).

(* 300-311 *)
Definition py_d_i_m_m_l_i_zp (q om m1 m2 beta : C) : C :=
  let bose1 := py_bose q m1 beta in
  let en1 := py_en q m1 in
  let bose2 := py_bose q m2 beta in
  let en2 := py_en q m2 in
  let t10 := bose1 / en1 * (n_ 1 / (om * om + jj (n_ 2) * en1 * om + m2 * m2 - m1 * m1)
                            + n_ 1 / (om * om - jj (n_ 2) * en1 * om + m2 * m2 - m1 * m1)) / n_ 2 in
  let t1 := bose1 / en1 * (n_ 1 / sq (om * om + jj (n_ 2) * en1 * om + m2 * m2 - m1 * m1)
                           + n_ 1 / sq (om * om - jj (n_ 2) * en1 * om + m2 * m2 - m1 * m1)) / n_ 2 in
  let t2 := bose2 / en2 * (n_ 1 / sq (om * om + jj (n_ 2) * en2 * om + m1 * m1 - m2 * m2)
                           + n_ 1 / sq (om * om - jj (n_ 2) * en2 * om + m1 * m1 - m2 * m2)) / n_ 2 in
  (- t10 / n_ 4 + (t1 - t2) * sq q / n_ 6) * sq q / npi2.

(* 314-328 *)
Definition py_d_i_m_m_t_i (q om p m1 m2 beta : C) : C :=
  let delta := sq m2 - sq m1 in
  let bose1 := py_bose q m1 beta in
  let en1 := py_en q m1 in
  let bose2 := py_bose q m2 beta in
  let en2 := py_en q m2 in
  let t1 := - q / p * bose1 / en1 * (py_tlog q om p en1 delta + py_tlog q (- om) p en1 delta) / (n_ 32 * npi2) in
  let t2 := sq q / sq p * (bose2 / en2 - bose1 / en1) / (n_ 8 * npi2) in
  let t31 := bose1 / en1 * ((sq (om + jj (n_ 1) * en1) + sq m2 + sq q + sq p) * py_tlog q om p en1 delta
                            + (sq (- om + jj (n_ 1) * en1) + sq m2 + sq q + sq p) * py_tlog q (- om) p en1 delta) / n_ 2 in
  let t32 := bose2 / en2 * ((sq (om + jj (n_ 1) * en2) + sq m1 + sq q + sq p) * py_tlog q om p en2 (- delta)
                            + (sq (- om + jj (n_ 1) * en2) + sq m1 + sq q + sq p) * py_tlog q (- om) p en2 (- delta)) / n_ 2 in
  let t3 := q / cu p * (t31 - t32) / (n_ 32 * npi2) in
  t1 + t2 + t3.

(** The six bubbles, in the order of [bubbles_mm] of SpecInteg.v *)
Definition py_bubbles (q om p m1 m2 beta : C) : list C :=
  [ py_i_m_m_i q om p m1 m2 beta; py_i_m_m_l_i q om p m1 m2 beta; py_i_m_m_t_i q om p m1 m2 beta;
    py_d_i_m_m_i q om p m1 m2 beta; py_d_i_m_m_l_i q om p m1 m2 beta; py_d_i_m_m_t_i q om p m1 m2 beta ].

(** The zero-momentum bubbles; the script has no separate transverse mass
    derivative and uses the longitudinal one, line 461 *)
Definition py_bubbles_zp (q om m1 m2 beta : C) : list C :=
  [ py_i_m_m_i_zp q om m1 m2 beta; py_i_m_m_l_i_zp q om m1 m2 beta; py_i_m_m_t_i_zp q om m1 m2 beta;
    py_d_i_m_m_i_zp q om m1 m2 beta; py_d_i_m_m_l_i_zp q om m1 m2 beta; py_d_i_m_m_l_i_zp q om m1 m2 beta ].

(** ** Ghost self-energy and gluon polarization (lines 331-461) *)

(* 331-340 *)
Definition py_ghost_se (q om p m beta : C) : C :=
  let s := om * om + p * p in
  let m2 := m * m in
  let a := s + m2 in
  let t1 := - s * a / (n_ 2 * m2) * py_i_m_m_i q om p m (n_ 0) beta in
  let t2 := s * s / (n_ 2 * m2) * py_i_m_m_i q om p (n_ 0) (n_ 0) beta in
  let t3 := (n_ 2 * s - m2) / (n_ 4 * m2) * (py_j_m_i q m beta - py_j_m_i q (n_ 0) beta) in
  let t4 := a * a / n_ 4 * py_d_i_m_m_i q om p m (n_ 0) beta in
  let t5 := - (s - m2) / n_ 4 * py_d_j_m_i q m beta in
  t1 + t2 + t3 + t4 + t5.

(* 343-352 *)
Definition py_ghost_se_zp (q om m beta : C) : C :=
  let s := om * om in
  let m2 := m * m in
  let a := s + m2 in
  let t1 := - s * a / (n_ 2 * m2) * py_i_m_m_i_zp q om m (n_ 0) beta in
  let t2 := s * s / (n_ 2 * m2) * py_i_m_m_i_zp q om (n_ 0) (n_ 0) beta in
  let t3 := (n_ 2 * s - m2) / (n_ 4 * m2) * (py_j_m_i q m beta - py_j_m_i q (n_ 0) beta) in
  let t4 := a * a / n_ 4 * py_d_i_m_m_i_zp q om m (n_ 0) beta in
  let t5 := - (s - m2) / n_ 4 * py_d_j_m_i q m beta in
  t1 + t2 + t3 + t4 + t5.

(* 355-364 *)
Definition py_j_m_l_p_i (q om p m beta : C) : C :=
  (p * p * py_j_m_l_i q m beta + om * om * py_j_m_t_i q m beta) / (om * om + p * p).
Definition py_d_j_m_l_p_i (q om p m beta : C) : C :=
  (p * p * py_d_j_m_l_i q m beta + om * om * py_d_j_m_t_i q m beta) / (om * om + p * p).
Definition py_d2_j_m_l_p_i (q om p m beta : C) : C :=
  (p * p * py_d2_j_m_l_i q m beta + om * om * py_d2_j_m_t_i q m beta) / (om * om + p * p).

(* 379-403 *)
Definition py_gluon_pol_l (q om p m beta : C) : C :=
  let s := om * om + p * p in
  let s2 := s * s in
  let m2 := m * m in
  let m4 := m2 * m2 in
  let z := n_ 0 in
  let t1 := (n_ 3 * s2 / (n_ 2 * m4) - n_ 1) * py_i_m_m_l_i q om p z z beta in
  let t2 := (n_ 4 + (n_ 3 * s2 + n_ 8 * m2 * s + n_ 4 * m4) / (n_ 2 * m4)) * py_i_m_m_l_i q om p m m beta in
  let t3 := - (n_ 3 * s2 + n_ 4 * m2 * s + m4) / m4 * py_i_m_m_l_i q om p m z beta in
  let t4 := n_ 2 * s * (s + n_ 2 * m2) / m2 * py_i_m_m_i q om p m m beta in
  let t5 := - n_ 2 * s * (s + m2) / m2 * py_i_m_m_i q om p m z beta in
  let t6 := - (n_ 2 * s + n_ 3 * m2) / m2 * py_j_m_i q m beta in
  let t7 := (n_ 2 * s + m2) / m2 * py_j_m_i q z beta in
  let t8 := - (n_ 8 * m2 + sq (s + n_ 2 * m2) / m2) * py_d_i_m_m_l_i q om p m m beta in
  let t9 := sq (s + m2) / m2 * py_d_i_m_m_l_i q om p m z beta in
  let t10 := - n_ 2 * s * (s + n_ 4 * m2) * py_d_i_m_m_i q om p m m beta in
  let t11 := sq (s + m2) * py_d_i_m_m_i q om p m z beta in
  let t12 := (s + n_ 3 * m2) * py_d_j_m_i q m beta in
  let t13 := - m4 * py_d2_j_m_i q m beta in
  let t14 := (py_j_m_l_p_i q om p m beta - py_j_m_l_p_i q om p z beta) / m2 in
  let t15 := - py_d_j_m_l_p_i q om p m beta in
  let t16 := m2 / n_ 2 * py_d2_j_m_l_p_i q om p m beta in
  t1 + t2 + t3 + t4 + t5 + t6 + t7 + t8 + t9 + t10 + t11 + t12 + t13 + t14 + t15 + t16.

(* 406-430, with the zero-momentum tadpoles of 367-376 *)
Definition py_gluon_pol_l_zp (q om m beta : C) : C :=
  let s := om * om in
  let s2 := s * s in
  let m2 := m * m in
  let m4 := m2 * m2 in
  let z := n_ 0 in
  let t1 := (n_ 3 * s2 / (n_ 2 * m4) - n_ 1) * py_i_m_m_l_i_zp q om z z beta in
  let t2 := (n_ 4 + (n_ 3 * s2 + n_ 8 * m2 * s + n_ 4 * m4) / (n_ 2 * m4)) * py_i_m_m_l_i_zp q om m m beta in
  let t3 := - (n_ 3 * s2 + n_ 4 * m2 * s + m4) / m4 * py_i_m_m_l_i_zp q om m z beta in
  let t4 := n_ 2 * s * (s + n_ 2 * m2) / m2 * py_i_m_m_i_zp q om m m beta in
  let t5 := - n_ 2 * s * (s + m2) / m2 * py_i_m_m_i_zp q om m z beta in
  let t6 := - (n_ 2 * s + n_ 3 * m2) / m2 * py_j_m_i q m beta in
  let t7 := (n_ 2 * s + m2) / m2 * py_j_m_i q z beta in
  let t8 := - (n_ 8 * m2 + sq (s + n_ 2 * m2) / m2) * py_d_i_m_m_l_i_zp q om m m beta in
  let t9 := sq (s + m2) / m2 * py_d_i_m_m_l_i_zp q om m z beta in
  let t10 := - n_ 2 * s * (s + n_ 4 * m2) * py_d_i_m_m_i_zp q om m m beta in
  let t11 := sq (s + m2) * py_d_i_m_m_i_zp q om m z beta in
  let t12 := (s + n_ 3 * m2) * py_d_j_m_i q m beta in
  let t13 := - m4 * py_d2_j_m_i q m beta in
  let t14 := (py_j_m_t_i q m beta - py_j_m_t_i q z beta) / m2 in
  let t15 := - py_d_j_m_t_i q m beta in
  let t16 := m2 / n_ 2 * py_d2_j_m_t_i q m beta in
  t1 + t2 + t3 + t4 + t5 + t6 + t7 + t8 + t9 + t10 + t11 + t12 + t13 + t14 + t15 + t16.

(* 433-457 *)
Definition py_gluon_pol_t (q om p m beta : C) : C :=
  let s := om * om + p * p in
  let s2 := s * s in
  let m2 := m * m in
  let m4 := m2 * m2 in
  let z := n_ 0 in
  let t1 := (n_ 3 * s2 / (n_ 2 * m4) - n_ 1) * py_i_m_m_t_i q om p z z beta in
  let t2 := (n_ 4 + (n_ 3 * s2 + n_ 8 * m2 * s + n_ 4 * m4) / (n_ 2 * m4)) * py_i_m_m_t_i q om p m m beta in
  let t3 := - (n_ 3 * s2 + n_ 4 * m2 * s + m4) / m4 * py_i_m_m_t_i q om p m z beta in
  let t4 := n_ 2 * s * (s + n_ 2 * m2) / m2 * py_i_m_m_i q om p m m beta in
  let t5 := - n_ 2 * s * (s + m2) / m2 * py_i_m_m_i q om p m z beta in
  let t6 := - (n_ 2 * s + n_ 3 * m2) / m2 * py_j_m_i q m beta in
  let t7 := (n_ 2 * s + m2) / m2 * py_j_m_i q z beta in
  let t8 := - (n_ 8 * m2 + sq (s + n_ 2 * m2) / m2) * py_d_i_m_m_t_i q om p m m beta in
  let t9 := sq (s + m2) / m2 * py_d_i_m_m_t_i q om p m z beta in
  let t10 := - n_ 2 * s * (s + n_ 4 * m2) * py_d_i_m_m_i q om p m m beta in
  let t11 := sq (s + m2) * py_d_i_m_m_i q om p m z beta in
  let t12 := (s + n_ 3 * m2) * py_d_j_m_i q m beta in
  let t13 := - m4 * py_d2_j_m_i q m beta in
  let t14 := (py_j_m_t_i q m beta - py_j_m_t_i q z beta) / m2 in
  let t15 := - py_d_j_m_t_i q m beta in
  let t16 := m2 / n_ 2 * py_d2_j_m_t_i q m beta in
  t1 + t2 + t3 + t4 + t5 + t6 + t7 + t8 + t9 + t10 + t11 + t12 + t13 + t14 + t15 + t16.

(* 460-461 *)
Definition py_gluon_pol_t_zp (q om m beta : C) : C := py_gluon_pol_l_zp q om m beta.

(** ** Quark polarization, for the script's three colors (lines 464-486) *)

(* 464-469 *)
Definition py_gluon_pol_quark_l (q om p m beta mu : C) : C :=
  let s := om * om + p * p in
  let eg := py_en q m in
  let t1 := (s - n_ 4 * sq eg + jj (n_ 4) * eg * om) / (n_ 8 * q * p) * py_tlog q om p eg (n_ 0) in
  let t1opp := (s - n_ 4 * sq eg - jj (n_ 4) * eg * om) / (n_ 8 * q * p) * py_tlog q (- om) p eg (n_ 0) in
  - (s / (p * p)) * py_fermi_double q m beta mu * sq q / eg * (n_ 1 - t1 - t1opp) / (n_ 6 * npi2).

(* 472-474 *)
Definition py_gluon_pol_quark_l_zp (q om m beta mu : C) : C :=
  let eg := py_en q m in
  - n_ 2 / (n_ 9 * npi2) * py_fermi_double q m beta mu * sq q / eg * (n_ 3 * sq eg - sq q) / (sq om + n_ 4 * sq eg).

(* 477-482 *)
Definition py_gluon_pol_quark_trace (q om p m beta mu : C) : C :=
  let s := om * om + p * p in
  let eg := py_en q m in
  let t1 := (s - n_ 2 * m * m) / (n_ 8 * q * p) * py_tlog q om p eg (n_ 0) in
  let t1opp := (s - n_ 2 * m * m) / (n_ 8 * q * p) * py_tlog q (- om) p eg (n_ 0) in
  - py_fermi_double q m beta mu * sq q / eg * (n_ 1 - t1 - t1opp) / (n_ 3 * npi2).

(* 485-486 *)
Definition py_gluon_pol_quark_t (q om p m beta mu : C) : C :=
  (py_gluon_pol_quark_trace q om p m beta mu - py_gluon_pol_quark_l q om p m beta mu) / n_ 2.
