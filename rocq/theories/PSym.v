(** * Symmetries of the thermal integrands at complex frequency *)
From Coq Require Import Reals Psatz List.
From Coquelicot Require Import Coquelicot.
From Verif Require Import Num CField MCommon MThermal MThermalZP MPolar SpecInteg PCplx PVac.
Import List ListNotations.
Open Scope R_scope.

Lemma oppopp (z : C) : (- - z)%C = z.
Proof. ring. Qed.
Lemma sqopp (z : C) : (- z * - z)%C = (z * z)%C.
Proof. ring. Qed.
Lemma invopp (z : C) : (/ - z)%C = (- / z)%C.
Proof. destruct z as (x, y). unfold Cinv, Copp. simpl. apply Ceq; simpl; unfold Rdiv; replace (- x * (- x * 1) + - y * (- y * 1)) with (x * (x * 1) + y * (y * 1)) by ring; ring. Qed.

Lemma cons_eq {A} (a b : A) l l' : a = b -> l = l' -> a :: l = b :: l'.
Proof. now intros -> ->. Qed.
Ltac lsplit := repeat apply cons_eq; try match goal with |- nil = nil => reflexivity end.
Lemma cons_inv {A} (a b : A) l l' : a :: l = b :: l' -> a = b /\ l = l'.
Proof. intros H. split; [exact (f_equal (hd a) H)|exact (f_equal (@tl A) H)]. Qed.
Tactic Notation "lsix" ident(A) ident(a) ident(b) ident(c) ident(d) ident(e) ident(f) := apply cons_inv in A; destruct A as [a A]; apply cons_inv in A; destruct A as [b A]; apply cons_inv in A; destruct A as [c A];
  apply cons_inv in A; destruct A as [d A]; apply cons_inv in A; destruct A as [e A]; apply cons_inv in A; destruct A as [f A].
Ltac evn := intros; cbv zeta; numcbn; rewrite ?oppopp, ?sqopp, ?invopp; unfold Cminus, Cdiv; ring.
Section Even.
Context {T1 : Type} {NT1 : Num T1} {T2 : Type} {NT2 : Num T2}.
Variables (q p beta : R) (om : C).
Lemma bubbles_mm_even (m1 : T1) (m2 : T2) : bubbles_mm q (- om)%C p m1 m2 beta = bubbles_mm q om p m1 m2 beta.
Proof.
  unfold bubbles_mm. lsplit.
  all: unfold i_m_m_i, i_m_m_l_i, i_m_m_t_i, d_i_m_m_i, d_i_m_m_l_i, d_i_m_m_t_i; evn.
Qed.
Lemma bubbles_same_even (m : T1) : bubbles_same q (- om)%C p m beta = bubbles_same q om p m beta.
Proof.
  unfold bubbles_same. lsplit.
  all: unfold i_m_m_i_same_mass, i_m_m_l_i_same_mass, i_m_m_t_i_same_mass, d_i_m_m_i_same_mass, d_i_m_m_l_i_same_mass, d_i_m_m_t_i_same_mass; evn.
Qed.
Lemma bubbles_m0_even (m : T1) : bubbles_m0 q (- om)%C p m beta = bubbles_m0 q om p m beta.
Proof.
  unfold bubbles_m0. lsplit.
  all: unfold i_m_0_i, i_m_0_l_i, i_m_0_t_i, d_i_m_0_i, d_i_m_0_l_i, d_i_m_0_t_i; evn.
Qed.
Lemma bubbles_0_even : bubbles_0 q (- om)%C p beta = bubbles_0 q om p beta.
Proof.
  unfold bubbles_0. lsplit.
  all: unfold i_0_0_i, i_0_0_l_i, i_0_0_t_i, d_i_0_0_i, d_i_0_0_l_i, d_i_0_0_t_i; evn.
Qed.
End Even.
Section EvenG.
Variables (q p beta : R) (om : C).
Lemma glue_parts_even (m : R) : glue_parts q (- om)%C p m beta = glue_parts q om p m beta.
Proof.
  pose proof (bubbles_same_even q p beta om m) as A. pose proof (bubbles_m0_even q p beta om m) as B. pose proof (bubbles_0_even q p beta om) as D.
  unfold bubbles_same in A. lsix A A1 A2 A3 A4 A5 A6. unfold bubbles_m0 in B. lsix B B1 B2 B3 B4 B5 B6. unfold bubbles_0 in D. lsix D D1 D2 D3 D4 D5 D6.
  unfold glue_parts. lsplit; unfold ghost_self_energy_thermal_part_landau_i, polarization_glue_l_thermal_part_landau_i, polarization_glue_t_thermal_part_landau_i;
    rewrite ?A1, ?A2, ?A3, ?A4, ?A5, ?A6, ?B1, ?B2, ?B3, ?B4, ?B5, ?B6, ?D1, ?D2, ?D3, ?D4, ?D5, ?D6; cbv zeta; numcbn; rewrite ?sqopp; reflexivity.
Qed.
Lemma quark_parts_even nc (mq mu : R) : quark_parts nc q (- om)%C p mq beta mu = quark_parts nc q om p mq beta mu.
Proof. unfold quark_parts. lsplit; unfold polarization_quark_l_thermal_part_landau_i, polarization_quark_t_thermal_part_landau_i; evn. Qed.
Lemma quark_parts_zero_temp_even nc (mq mu : R) : quark_parts_zero_temp nc q (- om)%C p mq mu = quark_parts_zero_temp nc q om p mq mu.
Proof. unfold quark_parts_zero_temp. lsplit; unfold polarization_quark_l_thermal_part_zero_temp_landau_i, polarization_quark_t_thermal_part_zero_temp_landau_i; evn. Qed.
End EvenG.

(** ** Zero momentum *)
Section EvenZ.
Context {T1 : Type} {NT1 : Num T1} {T2 : Type} {NT2 : Num T2}.
Variables (q beta : R) (om : C).
Ltac zunf := unfold zp_i_m_m_t_i, zp_i_m_m_t_i_same_mass, zp_i_m_0_t_i, zp_i_0_0_t_i, zp_d_i_m_m_t_i, zp_d_i_m_m_t_i_same_mass, zp_d_i_m_0_t_i, zp_d_i_0_0_t_i;
  unfold zp_i_m_m_i, zp_i_m_m_l_i, zp_d_i_m_m_i, zp_d_i_m_m_l_i, zp_i_m_m_i_same_mass, zp_i_m_m_l_i_same_mass, zp_d_i_m_m_i_same_mass, zp_d_i_m_m_l_i_same_mass,
  zp_i_m_0_i, zp_i_m_0_l_i, zp_d_i_m_0_i, zp_d_i_m_0_l_i, zp_i_0_0_i, zp_i_0_0_l_i, zp_d_i_0_0_i, zp_d_i_0_0_l_i.
Lemma moveopp (a b c d : C) : (a + b * (- c * Ci * d))%C = (a - b * (c * Ci * d))%C.
Proof. ring. Qed.
Lemma moveopp' (a b c d : C) : (a - b * (- c * Ci * d))%C = (a + b * (c * Ci * d))%C.
Proof. ring. Qed.
Ltac evz := zunf; cbv zeta; numcbn; rewrite ?oppopp, ?sqopp, ?invopp, ?moveopp, ?moveopp'; unfold Cdiv; try ring.
Lemma zp_bubbles_mm_even (m1 : T1) (m2 : T2) : zp_bubbles_mm q (- om)%C m1 m2 beta = zp_bubbles_mm q om m1 m2 beta.
Proof. unfold zp_bubbles_mm. lsplit; evz. Qed.
Lemma zp_bubbles_same_even (m : T1) : zp_bubbles_same q (- om)%C m beta = zp_bubbles_same q om m beta.
Proof. unfold zp_bubbles_same. lsplit; evz. Qed.
Lemma zp_bubbles_m0_even (m : T1) : zp_bubbles_m0 q (- om)%C m beta = zp_bubbles_m0 q om m beta.
Proof. unfold zp_bubbles_m0. lsplit; evz. Qed.
Lemma zp_bubbles_0_even : zp_bubbles_0 q (- om)%C beta = zp_bubbles_0 q om beta.
Proof. unfold zp_bubbles_0. lsplit; evz. Qed.
End EvenZ.
Section EvenZG.
Variables (q beta : R) (om : C).
Lemma zp_glue_parts_even (m : R) : zp_glue_parts q (- om)%C m beta = zp_glue_parts q om m beta.
Proof.
  pose proof (zp_bubbles_same_even q beta om m) as A. pose proof (zp_bubbles_m0_even q beta om m) as B. pose proof (zp_bubbles_0_even q beta om) as D.
  unfold zp_bubbles_same in A. lsix A A1 A2 A3 A4 A5 A6. unfold zp_bubbles_m0 in B. lsix B B1 B2 B3 B4 B5 B6. unfold zp_bubbles_0 in D. lsix D D1 D2 D3 D4 D5 D6.
  unfold zp_glue_parts. lsplit; unfold zp_ghost_self_energy_thermal_part_landau_i, zp_polarization_glue_t_thermal_part_landau_i, zp_polarization_glue_l_thermal_part_landau_i;
    rewrite ?A1, ?A2, ?A3, ?A4, ?A5, ?A6, ?B1, ?B2, ?B3, ?B4, ?B5, ?B6, ?D1, ?D2, ?D3, ?D4, ?D5, ?D6; cbv zeta; numcbn; rewrite ?sqopp; reflexivity.
Qed.
Lemma zp_quark_parts_even nc (mq mu : R) : zp_quark_parts nc q (- om)%C mq beta mu = zp_quark_parts nc q om mq beta mu.
Proof. unfold zp_quark_parts. lsplit; unfold zp_polarization_quark_t_thermal_part_landau_i, zp_polarization_quark_l_thermal_part_landau_i; cbv zeta; numcbn; now rewrite ?sqopp. Qed.
Lemma zp_quark_parts_zero_temp_even nc (mq mu : R) : zp_quark_parts_zero_temp nc q (- om)%C mq mu = zp_quark_parts_zero_temp nc q om mq mu.
Proof. unfold zp_quark_parts_zero_temp. lsplit; unfold zp_polarization_quark_t_thermal_part_zero_temp_landau_i, zp_polarization_quark_l_thermal_part_zero_temp_landau_i; cbv zeta; numcbn; now rewrite ?sqopp. Qed.
End EvenZG.
