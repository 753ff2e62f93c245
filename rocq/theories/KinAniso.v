(** Model of test/test_aniso_kinetics_VocePL.h: Voce hardening with one strength per slip system, the only user in the
    repository of the vector hardness update ([updateHN], ECMech_kinetics.h:271-312). *)
From Coq Require Import List ZArith Bool String.
From Verif Require Import Num Util SlipGeom Eos Hard KinVoce Elast Evptn MatModel Cases.
Import ListNotations.

Section Aniso.
  Context {T : Type} {N : Num T}.
  Local Open Scope num_scope.

  (* members, test_aniso_kinetics_VocePL.h:137-160.  All but _tausi are those of KineticsVocePL, kept in [an_v]
     (whose v_tausi is not a member of this class and is not used); _tausi is an array. *)
  Record Aniso := { an_v : Voce T; an_n : nat; an_tausi : list T }.

  (* test_aniso_kinetics_VocePL.h:24 *)
  Definition aniso_nParams (nonlinear : bool) (n : nat) : nat := (3 + 5 + n + (if nonlinear then 1 else 0))%nat.

  (* test_aniso_kinetics_VocePL.h:35-86; the assert at line 85 holds by construction *)
  Definition aniso_setParams (nonlinear : bool) (n : nat) (p : list T) : Aniso :=
    let xm := get p 1 in
    let xnn := one / xm in
    let j := (4 + n)%nat in
    let k := if nonlinear then S j else j in
    let xmprime := if nonlinear then get p (1 + j) else one in
    {| an_v := {| v_nonlinear := nonlinear;
         v_mu := get p 0; v_xm := xm; v_gam_w := get p 2;
         v_xnn := xnn; v_xn := xnn - one;
         v_t_min := npow gam_ratio_min xm;
         v_t_max := npow gam_ratio_ovf xm;
         v_h0 := get p 3; v_tausi := zero; v_taus0 := get p j;
         v_xmprime := xmprime;
         v_xmprime1 := if nonlinear then xmprime - one else zero;
         v_xms := get p (1 + k); v_gamss0 := get p (2 + k);
         v_hdn_init := get p (3 + k) |};
       an_n := n;
       an_tausi := sub p 4 n |}.

  (* test_aniso_kinetics_VocePL.h:88-124 *)
  Definition aniso_getParams (a : Aniso) : list T :=
    let v := an_v a in
    [v_mu v; v_xm v; v_gam_w v; v_h0 v] ++ tab (an_n a) (get (an_tausi a)) ++ [v_taus0 v; v_xms v; v_gamss0 v; v_hdn_init v].

  (* test_aniso_kinetics_VocePL.h:126-135: one entry, whatever the number of strengths *)
  Definition aniso_histInfo (a : Aniso) : list (string * T * bool * bool) :=
    [("h"%string, v_hdn_init (an_v a), true, true)].

  (* test_aniso_kinetics_VocePL.h:165-170 *)
  Definition aniso_getFixedRefRate (a : Aniso) (vals : list T) : T := v_gam_w (an_v a).

  (* test_aniso_kinetics_VocePL.h:172-192 *)
  Definition aniso_getVals (a : Aniso) (p tK : T) (h_state : list T) : list T * T :=
    (tab (an_n a) (get h_state), sum (an_n a) (get h_state) / nZ (Z.of_nat (an_n a))).
  (* assert at line 186 *)
  Definition aniso_valsOk (a : Aniso) (p tK : T) (h_state : list T) : bool :=
    forallb (fun i => zero <? get h_state i) (seq 0 (an_n a)).

  (* test_aniso_kinetics_VocePL.h:194-212; evalGdot (214-294) is the text of ECMech_kinetics_VocePL.h:198-279 *)
  Definition aniso_evalGdots (a : Aniso) (tau vals : list T) : list T * list T * list T :=
    let r iS := voce_evalGdot (an_v a) (get vals iS) (get tau iS) in
    (tab (an_n a) (fun iS => fst (fst (fst (r iS)))),
     tab (an_n a) (fun iS => snd (fst (r iS))),
     tab (an_n a) (fun iS => snd (r iS))).

  (* test_aniso_kinetics_VocePL.h:318-334; (shrate_eff, sv_sat) *)
  Definition aniso_getEvolVals (a : Aniso) (gdot : list T) : T * T :=
    let v := an_v a in
    let shrate_eff := vecsssumabs (an_n a) gdot in
    let sv_sat := if idp_tiny_sqrt <? shrate_eff
                  then v_taus0 v * npow (shrate_eff / v_gamss0 v) (v_xms v)
                  else v_taus0 v in
    (shrate_eff, sv_sat).

  (* test_aniso_kinetics_VocePL.h:336-375; (sdot, dsdot_ds) *)
  Definition aniso_getSdotN (a : Aniso) (ev : T * T) (h : list T) : list T * list T :=
    let v := an_v a in
    let '(shrate_eff, sv_sat) := ev in
    let temp2 i := if sv_sat <=? get (an_tausi a) i then zero else one / (sv_sat - get (an_tausi a) i) in
    if v_nonlinear v then
      let temp1 i := npow ((sv_sat - get h i) * temp2 i) (v_xmprime1 v) in
      (tab (an_n a) (fun i => v_h0 v * temp1 i * (sv_sat - get h i) * temp2 i * shrate_eff),
       tab2 (an_n a) (an_n a) (fun i j => if Nat.eqb i j then - v_h0 v * temp2 i * shrate_eff * v_xmprime v * temp1 i else nZ 0))
    else
      let temp1 i := v_h0 v * ((sv_sat - get h i) * temp2 i) in
      (tab (an_n a) (fun i => temp1 i * shrate_eff),
       tab2 (an_n a) (an_n a) (fun i j => if Nat.eqb i j then - v_h0 v * temp2 i * shrate_eff else nZ 0)).

  (* test_aniso_kinetics_VocePL.h:296-316 *)
  Definition aniso_updateH (solver : Solver T) (a : Aniso) (hs_o : list T) (dt : T) (gdot : list T) : option (list T * nat) :=
    match updateHN solver (an_n a) (aniso_getSdotN a (aniso_getEvolVals a gdot)) hs_o dt with
    | None => None
    | Some (h, n) => Some (tab (an_n a) (get h), n)
    end.

  (** the class as the template argument Kinetics of ECMech_evptn.h:995, test_aniso_kinetics_VocePL.h *)
  Definition aniso_kinetics (solver : Solver T) (a : Aniso) : Kinetics T :=
    {| k_nslip := an_n a; k_nH := an_n a;
       k_getVals := aniso_getVals a; k_valsOk := aniso_valsOk a;
       k_getFixedRefRate := aniso_getFixedRefRate a;
       k_evalGdots := aniso_evalGdots a;
       k_updateH := aniso_updateH solver a |}.

  (** matModel (ECMech_evptnWrap.h:22-451) instantiated with these kinetics on a slip geometry and an elasticity: the repository has
      no such instance, this is what a user who plugs the class in gets. *)
  Definition aniso_class (hsolver : Solver T) (nonlinear : bool) (c : MClass T) : MClass T :=
    {| c_nslip := c_nslip c; c_nH := c_nslip c;
       c_sgNP := c_sgNP c; c_sgSet := c_sgSet c; c_elNP := c_elNP c; c_elSet := c_elSet c;
       c_kinNP := aniso_nParams nonlinear (c_nslip c);
       c_kinSet := fun p => let a := aniso_setParams nonlinear (c_nslip c) p in Some (aniso_kinetics hsolver a, aniso_histInfo a);
       c_iso := c_iso c |}.
End Aniso.
Arguments Aniso T : clear implicits.
