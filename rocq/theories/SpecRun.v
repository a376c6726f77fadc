(** * Vocabulary for whole runs of the phase-diagram program *)
From Coq Require Import Reals List.
From Verif Require Import Num MVacuum MUtils MTc MPhase.
Import ListNotations.
Open Scope R_scope.

(** Inputs that differ at most in the masses of the corrected configuration. *)
Definition same_but_corrected (d d' : InputData) : Prop :=
  in_mg d = in_mg d' /\ in_om d = in_om d' /\ in_renpoint d = in_renpoint d' /\ in_mq d = in_mq d' /\ in_f0 d = in_f0 d' /\
  in_fewtemps d = in_fewtemps d' /\ in_moretemps d = in_moretemps d' /\ in_manytemps d = in_manytemps d' /\
  in_fewchempots d = in_fewchempots d' /\ in_morechempots d = in_morechempots d' /\ in_manychempots d = in_manychempots d' /\
  in_momenta d = in_momenta d'.

(** A fresh configuration of the program: two flavours of the first mass, one of the second. *)
Definition fresh (d : InputData) (mq : R * R * R) (temps chempots : R * R * R) : Config :=
  Config_new temps chempots (in_momenta d) (in_om d) (in_renpoint d) (in_f0 d)
    (FieldConfig_new 3 (in_mg d) [(2%nat, fst (fst mq)); (1%nat, snd (fst mq))]).

Definition positive_masses (d : InputData) : Prop :=
  0 < in_mg d /\ 0 < fst (fst (in_mq d)) /\ 0 < snd (fst (in_mq d)) /\ 0 < fst (fst (in_mqc d)) /\ 0 < snd (fst (in_mqc d)).

Definition step (v : R * R * R) : R := snd v.
