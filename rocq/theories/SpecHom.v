(** * Dimensional analysis: componentwise multiplication by powers of the scale *)
From Coq Require Import Reals ZArith List.
From Coquelicot Require Import Coquelicot.
Import List ListNotations.
Open Scope R_scope.

(** The k-th entry of [ks] is the power of [lam] that multiplies the k-th entry of [l]. *)
Definition scaled (lam : R) (ks : list Z) (l : list C) : list C := map (fun kz => (RtoC (powerRZ lam (fst kz)) * snd kz)%C) (combine ks l).

(** Mass dimensions of the integrands, in the order of [bubbles_mm], [tadpoles], [glue_parts] and [all_quark]. *)
Definition bubble_dim : list Z := [-1; 1; 1; -3; -1; -1]%Z.
Definition tadpole_dim : list Z := [1; 3; 3; -1; 1; 1; -3; -1; -1]%Z.
Definition glue_dim : list Z := [1; 1; 1]%Z.
Definition quark_dim : list Z := [1; 1; 1; 1; 1; 1]%Z.
