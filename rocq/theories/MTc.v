(** * Phase boundary helpers and the physical_tc configuration
    (tc_long_prop/src/lib.rs, tc_long_prop/src/bin/physical_tc.rs) *)
From Coq Require Import Reals List ZArith.
From Verif Require Import Num MVacuum MUtils.
Import ListNotations.
Open Scope R_scope.

(** [find_critical_temperature] over an arbitrary value type with an arbitrary
    comparison [gt] (so that NaN is covered). *)
Section Fct.
Context {T D : Type} (gt : D -> D -> bool).

(* tc_long_prop/src/lib.rs 41-45: the loop *)
Fixpoint fct_loop (l : list (T * D)) (tc : T) (dc : D) : T :=
  match l with
  | [] => tc
  | (t, d) :: l' => if gt d dc then fct_loop l' t d else fct_loop l' tc dc
  end.

(* tc_long_prop/src/lib.rs 39-47; [first().unwrap()] panics on an empty slice,
   [zip] stops at the shorter slice *)
Definition find_critical_temperature_gen (ts : list T) (ds : list D) : outcome T :=
  match ts, ds with
  | t0 :: _, d0 :: _ => Ret (fct_loop (skipn 1 (combine ts ds)) t0 d0)
  | _, _ => Panic
  end.
End Fct.

Definition Rgtb (x y : R) : bool := if Rlt_dec y x then true else false.
Definition find_critical_temperature : list R -> list R -> outcome R :=
  find_critical_temperature_gen Rgtb.

(* tc_long_prop/src/lib.rs 65-72; slicing [params[1..]] panics on an empty slice *)
Definition parametric_phase_diagram (mu : R) (params : list R) : outcome R :=
  match params with
  | [] => Panic
  | p0 :: rest => Ret (fold_left (fun res p => (res + p) * mu) (rev rest) 0 + p0)
  end.

(* tc_long_prop/src/lib.rs 80-82: [split(t == 0).next().unwrap()], the elements
   before the first separator; [split] always yields at least one (possibly
   empty) slice *)
Fixpoint reduce_phase_boundary (pb : list (R * R)) : list (R * R) :=
  match pb with
  | [] => []
  | (mu, t) :: pb' => if Req_EM_T t 0 then [] else (mu, t) :: reduce_phase_boundary pb'
  end.

(* tc_long_prop/src/lib.rs 165-182: the scan; [prev] is [phase_boundary[i - 1]],
   whose index panics when i = 0 *)
Fixpoint scan_boundary (mu t : R) (prev : option (R * R)) (pb : list (R * R)) : outcome bool :=
  match pb with
  | [] => Ret true
  | (mmu, tb) :: pb' =>
      if Req_EM_T mmu mu then Ret (if Rlt_dec tb t then true else false)
      else if Req_EM_T tb t then Ret (if Rlt_dec mmu mu then true else false)
      else if Rlt_dec mu mmu then
        match prev with
        | None => Panic
        | Some (mu0, t0) =>
            let tc := t0 + (tb - t0) / (mmu - mu0) * (mu - mu0) in
            Ret (if Rlt_dec tc t then true else false)
        end
      else scan_boundary mu t (Some (mmu, tb)) pb'
  end.

(* tc_long_prop/src/lib.rs 139-183 *)
Definition is_deconfined_phase (mu t : R) (phase_boundary : list (R * R)) : outcome bool :=
  let pb := reduce_phase_boundary phase_boundary in
  match pb with
  | [] => Panic
  | (fmu, ft) :: _ =>
      if Rlt_dec mu fmu then Panic
      else if Req_EM_T t 0 then Ret (if Rlt_dec (fst (last pb (0, 0))) mu then true else false)
      else if Req_EM_T mu 0 then
        (if Req_EM_T fmu 0 then Ret (if Rlt_dec ft t then true else false)
         else scan_boundary mu t None pb)
      else scan_boundary mu t None pb
  end.

(** ** physical_tc's Config *)

(* f64::round: half away from zero *)
Definition fround (x : R) : Z :=
  if Rle_dec 0 x then Int_part (x + / 2) else (- Int_part (- x + / 2))%Z.

(* bin/physical_tc.rs 184-189. [as usize] saturates below at 0; saturation at
   the upper end of [usize] is not modelled (such a vector cannot be allocated).
   A zero or NaN step is excluded in the statements. *)
Definition compute_vec (v : R * R * R) : list R :=
  let '(vmin, vmax, dv) := v in
  let vrange := vmax - vmin in
  let n := Z.to_nat (fround (vrange / dv)) in
  map (fun k => vmin + dv * INR k) (seq 0 (S n)).

(* bin/physical_tc.rs 24-44; the text fields label, filename, title are omitted *)
Record Config := mkConfig {
  cfg_pbase : R;
  cfg_om : R;
  cfg_fieldconfig : FieldConfig;
  cfg_correctedfieldconfig : option FieldConfig;
  cfg_renpoint : R;
  cfg_f0 : R;
  cfg_temps : list R;
  cfg_chempots : list R;
  cfg_momenta : list R;
  cfg_renpoint2 : R;
  cfg_correctedf0 : option R;
  cfg_phase_boundary : option (list (R * R))
}.

(* bin/physical_tc.rs 69-79 *)
Definition config_f0 (f0_init : R) (fc : FieldConfig) : R :=
  let nc := fc_nc fc in
  let mg := fc_gluon fc in
  f0_init + fold_left Rplus (map (fun q => INR (fst q) * ln (mg / snd q)) (fc_quarks fc)) 0 * 4 / (9 * INR nc).

(* bin/physical_tc.rs 48-98 *)
Definition Config_new (temps chempots momenta : R * R * R) (om renpoint f0_init : R) (fc : FieldConfig) : Config :=
  {| cfg_pbase := fst (fst momenta);
     cfg_om := om;
     cfg_fieldconfig := fc;
     cfg_correctedfieldconfig := None;
     cfg_renpoint := renpoint;
     cfg_f0 := config_f0 f0_init fc;
     cfg_temps := compute_vec temps;
     cfg_chempots := compute_vec chempots;
     cfg_momenta := compute_vec momenta;
     cfg_renpoint2 := renpoint * renpoint;
     cfg_correctedf0 := None;
     cfg_phase_boundary := None |}.

(** [fieldconfig.quarks[i].1] for each i in order, panicking out of range. *)
Fixpoint corrected_sum (quarks cquarks : list (nat * R)) : outcome (list R) :=
  match cquarks with
  | [] => Ret []
  | (nf, mqc) :: cq =>
      match quarks with
      | [] => Panic
      | (_, mq) :: q =>
          match corrected_sum q cq with
          | Panic => Panic
          | Ret l => Ret (INR nf * ln (mq / mqc) :: l)
          end
      end
  end.

(* bin/physical_tc.rs 162-182 *)
Definition set_correctedf0 (c : Config) : outcome Config :=
  match cfg_correctedfieldconfig c with
  | None => Ret (mkConfig (cfg_pbase c) (cfg_om c) (cfg_fieldconfig c) (cfg_correctedfieldconfig c)
                   (cfg_renpoint c) (cfg_f0 c) (cfg_temps c) (cfg_chempots c) (cfg_momenta c)
                   (cfg_renpoint2 c) None (cfg_phase_boundary c))
  | Some cfc =>
      match corrected_sum (fc_quarks (cfg_fieldconfig c)) (fc_quarks cfc) with
      | Panic => Panic
      | Ret l =>
          let cf0 := cfg_f0 c + fold_left Rplus l 0 * 4 / (9 * INR (fc_nc (cfg_fieldconfig c))) in
          Ret (mkConfig (cfg_pbase c) (cfg_om c) (cfg_fieldconfig c) (cfg_correctedfieldconfig c)
                 (cfg_renpoint c) (cfg_f0 c) (cfg_temps c) (cfg_chempots c) (cfg_momenta c)
                 (cfg_renpoint2 c) (Some cf0) (cfg_phase_boundary c))
      end
  end.

(* write of a public field (bin/physical_tc.rs 24-31) *)
Definition cfg_write_correctedfieldconfig (o : option FieldConfig) (c : Config) : Config :=
  mkConfig (cfg_pbase c) (cfg_om c) (cfg_fieldconfig c) o
    (cfg_renpoint c) (cfg_f0 c) (cfg_temps c) (cfg_chempots c) (cfg_momenta c)
    (cfg_renpoint2 c) (cfg_correctedf0 c) (cfg_phase_boundary c).
Definition cfg_write_fieldconfig (fc : FieldConfig) (c : Config) : Config :=
  mkConfig (cfg_pbase c) (cfg_om c) fc (cfg_correctedfieldconfig c)
    (cfg_renpoint c) (cfg_f0 c) (cfg_temps c) (cfg_chempots c) (cfg_momenta c)
    (cfg_renpoint2 c) (cfg_correctedf0 c) (cfg_phase_boundary c).

(* bin/physical_tc.rs 132-135 *)
Definition set_correctedfieldconfig (o : option FieldConfig) (c : Config) : outcome Config :=
  set_correctedf0 (cfg_write_correctedfieldconfig o c).

(* bin/physical_tc.rs 137-140 *)
Definition set_phase_boundary (o : option (list (R * R))) (c : Config) : Config :=
  mkConfig (cfg_pbase c) (cfg_om c) (cfg_fieldconfig c) (cfg_correctedfieldconfig c)
    (cfg_renpoint c) (cfg_f0 c) (cfg_temps c) (cfg_chempots c) (cfg_momenta c)
    (cfg_renpoint2 c) (cfg_correctedf0 c) (option_map reduce_phase_boundary o).

(* bin/physical_tc.rs 124-126 *)
Definition set_temperatures (v : R * R * R) (c : Config) : Config :=
  mkConfig (cfg_pbase c) (cfg_om c) (cfg_fieldconfig c) (cfg_correctedfieldconfig c)
    (cfg_renpoint c) (cfg_f0 c) (compute_vec v) (cfg_chempots c) (cfg_momenta c)
    (cfg_renpoint2 c) (cfg_correctedf0 c) (cfg_phase_boundary c).

(* bin/physical_tc.rs 128-130 *)
Definition set_chemicalpotentials (v : R * R * R) (c : Config) : Config :=
  mkConfig (cfg_pbase c) (cfg_om c) (cfg_fieldconfig c) (cfg_correctedfieldconfig c)
    (cfg_renpoint c) (cfg_f0 c) (cfg_temps c) (compute_vec v) (cfg_momenta c)
    (cfg_renpoint2 c) (cfg_correctedf0 c) (cfg_phase_boundary c).

(* bin/physical_tc.rs 144-160 *)
Definition maybe_corrected_data (c : Config) (mu t : R) : outcome (FieldConfig * R) :=
  match cfg_correctedfieldconfig c, cfg_correctedf0 c, cfg_phase_boundary c with
  | Some cfc, Some cf0, Some pb =>
      match is_deconfined_phase mu t pb with
      | Panic => Panic
      | Ret true => Ret (cfc, cf0)
      | Ret false => Ret (cfg_fieldconfig c, cfg_f0 c)
      end
  | None, None, None => Ret (cfg_fieldconfig c, cfg_f0 c)
  | _, _, _ => Panic
  end.
