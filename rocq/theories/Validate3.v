(** Binary64 runs of the update with one strength per slip system against the expected values of test_aniso_hardening.cxx. *)
From Coq Require Import List ZArith Bool Floats String.
From Verif Require Import Num NumF Util Hard KinVoce KinAniso Validate.
Import ListNotations.
Local Open Scope float_scope.

(** test/setup_kin_VocePL.h and setup_kin_VocePL_NS.h with ANISO_HARDENING *)
Definition an_pars (taus0 : float) (nl : list float) (xms : float) : list float :=
  [L 1 0; L 1 (-2); L 1 0; L 200 (-5)] ++ repeat (L 100 (-5)) 12 ++ [taus0] ++ nl ++ [xms; L 1 (-6); L 100 (-5)].
Definition an_run (nl : bool) (p : list float) : option (float * nat) :=
  let a := aniso_setParams nl 12 p in
  option_map (fun r => (nth 11 (fst r) 0, snd r))
    (k_updateH (aniso_kinetics solverF a) (repeat (snd (fst (fst (nth 0 (aniso_histInfo a) (EmptyString, 0%float, true, true))))) 12) (L 1 (-1)) v_gdot).
(* test_aniso_hardening.cxx:10-54, without and with KIN_NONLINEAR *)
Example an_voce : hard_ok (an_run false (an_pars (L 400 (-5)) [] (L 5 (-2)))) (L 1016620868315 (-15)) (L 1 (-11)) 2 = true.
Proof. vm_compute. reflexivity. Qed.
Example an_voce_nl : hard_ok (an_run true (an_pars (L 400 (-5)) [L 2 0] (L 5 (-2)))) (L 1016575445448 (-15)) (L 1 (-11)) 3 = true.
Proof. vm_compute. reflexivity. Qed.
(* test_aniso_hardening.cxx:56-93 *)
Example an_voce_ns : hard_ok (an_run false (an_pars (L 100 (-5)) [] (L 0 0))) (L 1 (-3)) (L 1 (-15)) 2 = true.
Proof. vm_compute. reflexivity. Qed.
Example an_voce_ns_nl : hard_ok (an_run true (an_pars (L 100 (-5)) [L 2 0] (L 0 0))) (L 1 (-3)) (L 1 (-15)) 2 = true.
Proof. vm_compute. reflexivity. Qed.
