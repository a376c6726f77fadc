(** * The gluon-pole program (qcd-sme/examples/ym_thermal_gluon_poles.rs)

    Not modelled: what is printed, the directory and file handling, the plot
    decorations. A panic of the program is one of the first three values of
    [pole_result]. *)
From Coq Require Import Reals List Bool.
From Coquelicot Require Import Coquelicot.
From Verif Require Import Num MConsts MUtils MVacuum MDress.
Import ListNotations.
Open Scope R_scope.

(* 7-12 *)
Definition MG : R := 656 / 1000.
Definition TOL : R := / 10 ^ 12.
Definition MAX_ITER : nat := (1000 * 1000)%nat.
Definition Z0 : C := (-1, -1).
Definition Z1 : C := (-5 / 10, -5 / 10).

Inductive pole_result (A : Type) :=
| BadArguments   (* panic inside [qcd_sme::utils::find_root] *)
| NoRoot         (* "Found no root" *)
| NotSymmetric   (* "Roots are not symmetric!" *)
| Found (a : A).
Arguments BadArguments {A}. Arguments NoRoot {A}. Arguments NotSymmetric {A}. Arguments Found {A}.

(* 14-16 *)
Definition pole_find_root (f : C -> C) : outcome (option (C * C)) := find_root RootOpsC f (Z0, Z1) TOL MAX_ITER.

(* 31; [resid] is [compute_residue] in the program *)
Definition vacuum_residue (resid : (C -> C) -> C -> C) (f : C -> C) (root : C) : C :=
  Cdiv (resid (fun z => Cdiv (RtoC 1) (f z)) root) root.

(* 19-42: the pair pushed to [res] *)
Definition find_pole (f : C -> C) : pole_result (C * R) :=
  match pole_find_root f with
  | Panic => BadArguments
  | Ret None => NoRoot
  | Ret (Some (root, _)) =>
      let residue := vacuum_residue compute_residue f root in
      let z_rat := snd residue / fst residue in
      Found (Cmult (Csqrt (Copp root)) (RtoC MG), z_rat)
  end.

Definition exceeds (x y : R) : bool := if Rlt_dec y x then true else false.

(* 66-67 *)
Definition thermal_residue (resid : (C -> C) -> C -> C) (f : C -> C) (root : C) : C :=
  Cconj (Cdiv (Cmult (resid (fun z => Cdiv (RtoC 1) (f z)) root) (RtoC 2)) root).

(* 45-78: the pair pushed to [res] *)
Definition find_thermal_pole (f : C -> C) : pole_result (C * R) :=
  match pole_find_root f with
  | Panic => BadArguments
  | Ret None => NoRoot
  | Ret (Some (root, _)) =>
      if (exceeds (Cmod (f (Copp root))) TOL || exceeds (Cmod (f (Cconj root))) TOL || exceeds (Cmod (f (Copp (Cconj root)))) TOL)%bool
      then NotSymmetric
      else
        let residue := thermal_residue compute_residue f root in
        let z_rat := snd residue / fst residue in
        Found (Cconj (Cmult root Ci), z_rat)
  end.

(* 83, 85-87 *)
Definition f0_ym : R := - (876 / 1000).
Definition temperatures : list R := [0; 121 / 1000; 194 / 1000; 260 / 1000; 290 / 1000; 366 / 1000; 458 / 1000].
Definition masses : list R := [675 / 1000; 725 / 1000; 775 / 1000; 725 / 1000; 800 / 1000; 900 / 1000].
Definition df0s : list R := [5 / 100; 10 / 100; 30 / 100; 40 / 100; 50 / 100; 60 / 100].

(* 95-105: the loop, stopped by the first panic *)
Fixpoint thermal_poles (J : Integrator) (g : globals R) (l : list (R * (R * R))) (res : list (C * R)) : pole_result (list (C * R)) :=
  match l with
  | [] => Found res
  | (t, (m, df0)) :: l' =>
      match find_thermal_pole (fun z => zp_ym_gluon_dressing_t_inv J g z m (1 / t) (df0 + f0_ym)) with
      | Found v => thermal_poles J g l' (res ++ [v])
      | BadArguments => BadArguments
      | NoRoot => NoRoot
      | NotSymmetric => NotSymmetric
      end
  end.

(* 81-105: the vector [res] *)
Definition pole_res (J : Integrator) (g : globals R) : pole_result (list (C * R)) :=
  match find_pole (fun z => ym_gluon_dressing_inv_landau z f0_ym) with
  | Found v => thermal_poles J g (combine (skipn 1 temperatures) (combine masses df0s)) [v]
  | BadArguments => BadArguments
  | NoRoot => NoRoot
  | NotSymmetric => NotSymmetric
  end.

(* 122-125: the rows of poles.out *)
Definition pole_rows (res : list (C * R)) : list (R * (C * R)) := combine temperatures res.

(* 107-110: the plotted series *)
Definition poles_re (res : list (C * R)) : list R := map (fun v => fst (fst v)) res.
Definition poles_im (res : list (C * R)) : list R := map (fun v => snd (fst v)) res.
Definition residues_ratio (res : list (C * R)) : list R := map snd res.
Definition residues_phase (res : list (C * R)) : list R := map atan (residues_ratio res).

(* 81-158 up to the input/output *)
Definition poles_main (J : Integrator) (g : globals R) : pole_result (list (R * (C * R))) :=
  match pole_res J g with
  | Found res => Found (pole_rows res)
  | BadArguments => BadArguments
  | NoRoot => NoRoot
  | NotSymmetric => NotSymmetric
  end.
