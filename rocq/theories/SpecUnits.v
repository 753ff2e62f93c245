(** Change of units, written without the model: the unit of stress and of energy per volume becomes [lam] times smaller, so that
    their numbers become [lam] times larger; the unit of time becomes [kap] times smaller; temperature, length and the
    reference of the dislocation density stay. *)
From Coq Require Import List ZArith Bool Reals.
From Verif Require Import Num NumR Hard MatModel Cases SpecTensor SpecApi SpecStress SpecStep SpecKinApi.
Import ListNotations.
Local Open Scope R_scope.

(** whether the strength in the history is a stress (Voce hardening) or a dislocation density *)
Definition strength_is_stress (c : MClass R) : bool := Nat.leb (c_kinNP c) 10.

Section Units.
  Variables lam kap : R.
  (** factors of the parameters: mu, xm, gam_w, h0, tausi, taus0, [xmprime], xms, gamss0, initial strength *)
  Definition voce_dims (nl : bool) : list R := [lam; 1; / kap; lam; lam; lam] ++ (if nl then [1] else []) ++ [1; / kap; lam].
  (** mu, reference temperature, c_1 (n values), tau_a, p, q, gam_wo, gam_ro, wrD, g_o (n), s (n), k1, k2o, ninv, gamma_o,
      initial density *)
  Definition km_dims (n : nat) : list R :=
    [lam; 1] ++ repeat (/ lam) n ++ [lam; 1; 1; / kap; / kap; lam] ++ repeat lam n ++ repeat lam n ++ [1; 1; 1; / kap; 1].
  (** density, heat capacity, tolerance, [c/a], elastic constants, [Grueneisen anisotropy], kinetics, Grueneisen parameter,
      cold energy *)
  Definition par_dims (c : MClass R) : list R :=
    [lam * kap * kap; lam; 1] ++ (if hexagonal c then [1] ++ repeat lam 5 ++ [1] else repeat lam 3) ++
    (if strength_is_stress c then voce_dims (Nat.eqb (c_kinNP c) 10) else km_dims (km_groups c)) ++ [1; lam].
  Definition new_units (c : MClass R) (pars pars' : list R) : Prop :=
    List.length pars' = List.length pars /\ forall k, nth k pars' 0 = nth k (par_dims c) 1 * nth k pars 0.

  (** factors of the history: shear rate, shear, flow strength, evaluations, elastic strain, orientation, strength, slip rates *)
  Definition hist_dim (c : MClass R) (k : nat) : R :=
    if Nat.eqb k 0 then / kap else if Nat.eqb k 2 then lam else if Nat.ltb k 13 then 1
    else if Nat.eqb k 13 then (if strength_is_stress c then lam else 1) else / kap.

  (** same solver, time step in the new unit *)
  Definition new_step (b b' : BCall) : Prop :=
    b_solver b' = b_solver b /\ b_dt b' = kap * b_dt b /\ b_mtan b' = b_mtan b.
  Definition new_in (c : MClass R) (b : BCall) (i : nat) (b' : BCall) (i' : nat) : Prop :=
    let s := b_s b in let m := b_m b in let s' := b_s b' in let m' := b_m b' in
    (forall k, (k < 6)%nat -> val s' m' AD i' k = / kap * val s m AD i k) /\
    (forall k, (k < 3)%nat -> val s' m' AW i' k = / kap * val s m AW i k) /\
    vOld s' m' i' = vOld s m i /\ vNew s' m' i' = vNew s m i /\ delv s' m' i' = delv s m i /\
    eInt s' m' i' = lam * eInt s m i /\
    (forall k, (k < 7)%nat -> val s' m' AS i' k = lam * val s m AS i k) /\
    (forall k, (k < 14 + c_nslip c)%nat -> val s' m' AH i' k = hist_dim c k * val s m AH i k).
  Definition new_out (c : MClass R) (b : BCall) (i : nat) (b' : BCall) (i' : nat) : Prop :=
    let s := b_s b in let m1 := b_m1 b in let s' := b_s b' in let m1' := b_m1 b' in
    eInt s' m1' i' = lam * eInt s m1 i /\
    (forall k, (k < 7)%nat -> val s' m1' AS i' k = lam * val s m1 AS i k) /\
    (forall k, (k < 14 + c_nslip c)%nat -> val s' m1' AH i' k = hist_dim c k * val s m1 AH i k) /\
    val s' m1' AT i' 0 = val s m1 AT i 0 /\
    val s' m1' AB i' 0 = lam * val s m1 AB i 0 /\ val s' m1' AB i' 1 = lam * val s m1 AB i 1.

  (** the same answer to the question whether a rate is above 1e-90 *)
  Definition same_side (x : R) : Prop := / 10 ^ 90 < x <-> / 10 ^ 90 < / kap * x.
  (** where the code has numbers with a unit in it: the scale of the strength is taken to be 1 when it is below 1; rates are
      compared with 1e-90 *)
  Definition off_limits (c : MClass R) (b : BCall) (i : nat) : Prop :=
    (strength_is_stress c = true -> lam = 1 \/ 1 <= strength (b_s b) (b_m b) i /\ 1 <= lam * strength (b_s b) (b_m b) i) /\
    same_side (shear_of c (b_s b) (b_m b) i) /\ same_side (sqrt (2 / 3) * norm3t (devRate (b_s b) (b_m b) i)).

  (** [row_times n d A]: row [r] of the [n] by [n] matrix [A] times [d r]; the first five equations of a point are rates *)
  Definition row_times (n : nat) (d : nat -> R) (A : list R) : list R :=
    flat_map (fun r => map (fun q => d r * nth (r * n + q) A 0) (seq 0 n)) (seq 0 n).
  Definition row_unit (r : nat) : R := if Nat.ltb r 5 then kap else 1.
End Units.
