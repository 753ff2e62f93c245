(** The literals of ECMech_const.h as decimal numbers: (mantissa, exponent of ten). *)
From Coq Require Import ZArith.
Local Open Scope Z_scope.

Definition lit_SQRT2 : Z * Z := (141421356237309504880168872421, -29).     (* ECMech_const.h:17-19 *)
Definition lit_SQRT3 : Z * Z := (173205080756887729352744634151, -29).     (* ECMech_const.h:21-23 *)
Definition lit_SQRT3B2 : Z * Z := (122474487139158904909864203735, -29).   (* ECMech_const.h:25-27 *)
Definition lit_SQRT2I : Z * Z := (707106781186547524400844362105, -30).    (* ECMech_const.h:29-31 *)
Definition lit_SQRT3I : Z * Z := (577350269189625764509148780501, -30).    (* ECMech_const.h:33-35 *)
Definition lit_SQRT6 : Z * Z := (244948974278317809819728407471, -29).     (* ECMech_const.h:37-39 *)
Definition lit_SQRT6I : Z * Z := (408248290463863016366214012450, -30).    (* ECMech_const.h:41-43 *)
Definition lit_SQRT2B3 : Z * Z := (816496580927726032732428024904, -30).   (* ECMech_const.h:45-47 *)
Definition lit_HALFSQRT3 : Z * Z := (866025403784438646763723170755, -30). (* ECMech_const.h:49-51 *)
Definition lit_TWOSQRT3 : Z * Z := (346410161513775458705489268302, -29).  (* ECMech_const.h:53-55 *)

(* ECMech_const.h:139-152 *)
Definition lit_idp_tiny_sqrt : Z * Z := (1, -90).
Definition lit_idp_eps_sqrt : Z * Z := (1, -8).
Definition lit_gam_ratio_min : Z * Z := (1, -60).
Definition lit_ln_gam_ratio_min : Z * Z := (-13816, -2).
Definition lit_gam_ratio_max : Z * Z := (1, 30).
Definition lit_gam_ratio_ovffx : Z * Z := (1, 45).
Definition lit_gam_ratio_ovf : Z * Z := (1, 60).
Definition lit_ln_gam_ratio_ovf : Z * Z := (13815, -2).
