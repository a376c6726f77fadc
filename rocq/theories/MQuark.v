(** * Quark charge density and chemical potential
    (qcd-sme/src/qcd/thermal.rs, module [quark]) *)
From Coq Require Import Reals.
From Coquelicot Require Import Coquelicot.
From Verif Require Import Num MCommon MConsts MUtils MDress.
Open Scope R_scope.

(* qcd/thermal.rs 295, 354 *)
Definition PI2q : R := PI * PI.

(* qcd/thermal.rs 356-364 *)
Definition charge_density_i (nc : nat) (q m beta mu : R) : R :=
  let en := energy q m in
  INR nc * q * q * (fermi_distribution en beta mu - fermi_distribution en beta (- mu)) / PI2q.

(* qcd/thermal.rs 297-303 *)
Definition charge_density_with_method (J : Integrator) (g : globals R) (m beta mu : R) (integral : Integral R) : R :=
  integrateR J (fun t => charge_density_i (get_number_of_colors g) ((1 - t) / t) m beta mu / (t * t)) 0 1 integral.

(* qcd/thermal.rs 305-307 *)
Definition charge_density (J : Integrator) (g : globals R) (m beta mu : R) : R :=
  charge_density_with_method J g m beta mu (get_default_integration_method g).

(* qcd/thermal.rs 309-316 *)
Definition charge_density_zero_temp (nc : nat) (m mu : R) : R :=
  if Rle_dec (Rabs mu) (Rabs m) then 0
  else
    let s := if Rlt_dec m mu then 1 else -1 in
    let fm := fermi_momentum m mu in
    INR nc * s * (fm * fm * fm) / (3 * PI2q).

(* qcd/thermal.rs 318-330; [.unwrap()] on [None] is a panic *)
Definition chemical_potential_with_method (J : Integrator) (g : globals R) (m beta n : R) (integral : Integral R) : outcome R :=
  if Req_EM_T n 0 then Ret 0
  else
    match find_root RootOpsR (fun mu => n - charge_density_with_method J g m beta mu integral)
            (5 / 10 * n, n) (get_tol integral) 1000 with
    | Panic => Panic
    | Ret None => Panic
    | Ret (Some r) => Ret (fst r)
    end.

(* qcd/thermal.rs 332-334 *)
Definition chemical_potential (J : Integrator) (g : globals R) (m beta n : R) : outcome R :=
  chemical_potential_with_method J g m beta n (get_default_integration_method g).

(* qcd/thermal.rs 336-343; [powf] of a positive base is [Rpower] *)
Definition chemical_potential_zero_temp (nc : nat) (m n : R) : R :=
  if Req_EM_T n 0 then 0
  else
    let a := Rpower (3 * PI2q * Rabs n / INR nc) (2 / 3) in
    let s := if Rlt_dec 0 n then 1 else -1 in
    s * sqrt (m * m + a).
