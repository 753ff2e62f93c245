(** Property theorems C13: slip systems. *)
From Coq Require Import List ZArith Reals Lra Lia.
From Verif Require Import Num NumR Util SlipGeom SpecTensor SpecSlip P_Tensor P_Slip P_SlipH.
Import ListNotations.
Local Open Scope R_scope.

(** C13, FCC. Construction succeeds; the 12 systems are unit, perpendicular, pairwise different (also up to
    sign), the arrays behind getP and getQ are the 5-vector of the symmetric part and the axial vector of the
    skew part of s (x) m; each is of type {111}<110>, and every {111}<110> system is among them. *)
Theorem C13_fcc : exists g : SlipGeom R, slipGeomFCC = Some g /\ sg_nslip g = 12%nat /\
  schmid_data (sg_P g) (sg_Q g) 12 (fun i => unitv (cub (fst (nth i sys_fcc d3)))) (fun i => unitv (cub (snd (nth i sys_fcc d3)))) /\
  legal_systems 12 (fun i => unitv (cub (fst (nth i sys_fcc d3)))) (fun i => unitv (cub (snd (nth i sys_fcc d3)))).
Proof. exact geom_fcc. Qed.
Theorem C13_fcc_family i : (i < 12)%nat -> fam 3 (fst (nth i sys_fcc d3)) /\ fam 2 (snd (nth i sys_fcc d3)).
Proof. exact (fcc_family i). Qed.
Theorem C13_fcc_complete p d : fam 3 p -> fam 2 d -> zdot p d = 0%Z ->
  exists i, (i < 12)%nat /\ pm p (fst (nth i sys_fcc d3)) /\ pm d (snd (nth i sys_fcc d3)).
Proof. exact (fcc_complete p d). Qed.
Example C13_fcc_case : fam 3 (-1, 1, -1)%Z /\ fam 2 (1, 1, 0)%Z /\ (zdot (-1, 1, -1) (1, 1, 0) = 0)%Z.
Proof. repeat split. Qed.

(** C13, BCC with 12, 24 or 48 systems: {110}<111>, then {112}<111>, then {123}<111>. *)
Theorem C13_bcc n : n = 12%nat \/ n = 24%nat \/ n = 48%nat -> exists g : SlipGeom R, slipGeomBCC n = Some g /\ sg_nslip g = n /\
  schmid_data (sg_P g) (sg_Q g) n (fun i => unitv (cub (fst (nth i (sys_bcc n) d3)))) (fun i => unitv (cub (snd (nth i (sys_bcc n) d3)))) /\
  legal_systems n (fun i => unitv (cub (fst (nth i (sys_bcc n) d3)))) (fun i => unitv (cub (snd (nth i (sys_bcc n) d3)))).
Proof. exact (geom_bcc n). Qed.
(** No other number of systems is accepted. *)
Theorem C13_bcc_sizes {T} {N : Num T} n : (exists g : SlipGeom T, slipGeomBCC n = Some g) -> n = 12%nat \/ n = 24%nat \/ n = 48%nat.
Proof. intros [g H]. exact (bcc_sizes n g H). Qed.
Theorem C13_bcc_family n i : n = 12%nat \/ n = 24%nat \/ n = 48%nat -> (i < n)%nat ->
  fam 3 (snd (nth i (sys_bcc n) d3)) /\
  fam (if Nat.ltb i 12 then 2 else if Nat.ltb i 24 then 6 else 14)%Z (fst (nth i (sys_bcc n) d3)).
Proof. exact (bcc_family n i). Qed.
Theorem C13_bcc_complete n p d : fam 3 d -> zdot p d = 0%Z ->
  (fam 2 p /\ (12 <= n)%nat) \/ (fam 6 p /\ (24 <= n)%nat) \/ (fam 14 p /\ n = 48%nat) ->
  exists i, (i < n)%nat /\ pm p (fst (nth i (sys_bcc n) d3)) /\ pm d (snd (nth i (sys_bcc n) d3)).
Proof. exact (bcc_complete n p d). Qed.
Example C13_bcc_case : fam 3 (1, -1, 1)%Z /\ (zdot (3, 1, -2) (1, -1, 1) = 0)%Z /\ fam 14 (3, 1, -2)%Z.
Proof. repeat split. Qed.

(** C13, HCP for every c/a > 0: basal, prismatic, pyramidal <a> and first-order pyramidal <c+a>. *)
Theorem C13_hcp ca : 0 < ca -> exists g : SlipGeom R, slipGeomHCP ca = Some g /\ sg_nslip g = 24%nat /\
  schmid_data (sg_P g) (sg_Q g) 24 (fun i => unitv (hexnrm ca (fst (nth i sys_hcp d4)))) (fun i => unitv (hexdir ca (snd (nth i sys_hcp d4)))) /\
  legal_systems 24 (fun i => unitv (hexnrm ca (fst (nth i sys_hcp d4)))) (fun i => unitv (hexdir ca (snd (nth i sys_hcp d4)))).
Proof. exact (geom_hcp ca). Qed.
Theorem C13_hcp_family i : (i < 24)%nat -> hexfam (fst (nth i sys_hcp d4)) (snd (nth i sys_hcp d4)).
Proof. exact (hcp_family i). Qed.
Theorem C13_hcp_complete p d : hexfam p d ->
  exists i, (i < 24)%nat /\ pm4 p (fst (nth i sys_hcp d4)) /\ pm4 d (snd (nth i sys_hcp d4)).
Proof. exact (hcp_complete p d). Qed.
Example C13_hcp_case : 0 < 1.59773226818 /\ hexfam (0, 1, -1, 1)%Z (-1, 2, -1, -3)%Z.
Proof. split; [lra|]. unfold hexfam, hexOK, zdot4, hk2, idx4. repeat split; lia. Qed.

Print Assumptions C13_fcc.
Print Assumptions C13_fcc_complete.
Print Assumptions C13_bcc.
Print Assumptions C13_bcc_sizes.
Print Assumptions C13_bcc_complete.
Print Assumptions C13_hcp.
Print Assumptions C13_hcp_complete.
