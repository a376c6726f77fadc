(** * The program examples/qcd_gluon_propagator_asymptotics.rs

    [asymptotics_known] is in MHtl. The decimal literals are their exact decimal
    values; plotting, printing and file output are not modelled, the data handed
    to the plots are. *)
From Coq Require Import Reals List.
From Coquelicot Require Import Coquelicot.
From Verif Require Import Num MConsts MDress MHtl.
Import ListNotations.
Open Scope R_scope.

(* examples/qcd_gluon_propagator_asymptotics.rs 21-32; the result and the final globals.
   In Rust [ln] of a negative number is NaN, here it is 0: the theorems show that the
   argument is positive where it matters. *)
Definition asymptotics_test (J : Integrator) (t mu : R) (nc nf : nat) (g : globals R) : R * globals R :=
  let nc_old := get_number_of_colors g in
  let nf_old := get_number_of_fermions g in
  let mq := get_default_quark_mass g in
  let g1 := set_number_of_colors OpsR nc g in
  let g2 := set_number_of_fermions OpsR nf g1 in
  let '(om, p, m, beta, f0) := (1 / 1000, 1 / 1000, 3 / 10, 1 / t, 3 / 2) in
  let res := - ln (fst (qcd_gluon_propagator_l J g2 om p m mq beta mu f0) / INR nc) in
  let g3 := set_number_of_colors OpsR nc_old g2 in
  let g4 := set_number_of_fermions OpsR nf_old g3 in
  (res, g4).

(* the loop over the temperatures (63-68) or chemical potentials (93-98): the vectors y1 and y2 *)
Fixpoint asymptotics_rows (J : Integrator) (tmus : list (R * R)) (nc nf : nat) (rem : R) (g : globals R) : list R * list R * globals R :=
  match tmus with
  | [] => ([], [], g)
  | (t, mu) :: rest =>
      let y1 := asymptotics_known t mu nc nf rem in
      let '(y2, g') := asymptotics_test J t mu nc nf g in
      let '(y1s, y2s, g'') := asymptotics_rows J rest nc nf rem g' in
      (y1 :: y1s, y2 :: y2s, g'')
  end.
(* the loops over nf and nc (60-75, 90-105): the images inserted into the plot, in order,
   each with (nf, nc) and whether it is the "(test)" one, as in the legend *)
Fixpoint asymptotics_series (J : Integrator) (tmus : list (R * R)) (nfnc : list (nat * nat)) (rem : R) (g : globals R) : list (nat * nat * bool * list R) * globals R :=
  match nfnc with
  | [] => ([], g)
  | (nf, nc) :: rest =>
      let '(y1, y2, g') := asymptotics_rows J tmus nc nf rem g in
      let '(s, g'') := asymptotics_series J tmus rest rem g' in
      ((nf, nc, false, y1) :: (nf, nc, true, y2) :: s, g'')
  end.
(* 45-108: the data of both plots and the final globals; [None] would be a panic of the setter *)
Definition asymptotics_main (J : Integrator) (g : globals R) : option (list (nat * nat * bool * list R) * list (nat * nat * bool * list R) * globals R) :=
  match set_default_tol_integral OpsR (/ 10 ^ 4) g with
  | None => None
  | Some g0 =>
      let rem := 202 / 100 in
      let nfnc := flat_map (fun nf => map (fun nc => (nf, nc)) [2; 3; 5]%nat) [1; 2]%nat in
      let mu := 3 in
      let '(s1, g1) := asymptotics_series J (map (fun t => (t, mu)) [8; 12; 15; 20]) nfnc rem g0 in
      let t := 3 in
      let '(s2, g2) := asymptotics_series J (map (fun mu => (t, mu)) [8; 12; 15; 20]) nfnc rem g1 in
      Some (s1, s2, g2)
  end.
