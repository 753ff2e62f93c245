(** A run of Powell's dogleg solver that leaves the starting point, with a step cut at the border of the trust region (C22). *)
From Coq Require Import List ZArith Bool Lia PeanoNat Reals Lra ClassicalDescription.
From Verif Require Import Hard SpecTensor SpecSym P_Sym10 SpecTrust.
Import ListNotations.
Local Open Scope R_scope.

Definition tr_f (x : list R) : list R * list R := ([nth 0 x 0 - 3; nth 1 x 0 - 4], [1; 0; 0; 1]).
Lemma ls_id ls y0 y1 : exact_solve ls -> ls 2%nat [1; 0; 0; 1] [y0; y1] = Some [y0; y1].
Proof.
  intros H. apply H; [reflexivity|]. split; [reflexivity|]. split; [unfold mv; cbn; repeat (f_equal; try ring)|].
  intros [|a [|b [|c d]]] L E; try discriminate. unfold mv in E. cbn in E.
  pose proof (f_equal (fun l => nth 0 l 0) E) as E0. pose proof (f_equal (fun l => nth 1 l 0) E) as E1. cbn in E0, E1. f_equal; [lra|f_equal; lra].
Qed.
Lemma go_S A small choose judge ls n f tol k nf x xl a :
  trust_go A small choose judge ls n f tol (S k) nf x xl a =
    let r := fst (f x) in let J := snd (f x) in let g := mvT n J r in
    let nr := ls n J (lin (-1) 0 r r) in let ms := measured n r J g nr in
    match choose a ms with
    | None => {| so_converged := false; so_x := x; so_xlast := xl; so_nfev := nf; so_nfev_rj := nf |}
    | Some (p, q) =>
      let d := match nr with Some s => lin p q s g | None => lin q 0 g g end in
      let x' := lin 1 1 x d in let r' := fst (f x') in
      if small n tol (norm2 r') then {| so_converged := true; so_x := x'; so_xlast := x'; so_nfev := S nf; so_nfev_rj := S nf |} else
      match judge a ms (norm2 r') with
      | (_, None) => {| so_converged := false; so_x := x'; so_xlast := x'; so_nfev := S nf; so_nfev_rj := S nf |}
      | (true, Some a') => trust_go A small choose judge ls n f tol k (S nf) x' x' a'
      | (false, Some a') => trust_go A small choose judge ls n f tol k (S nf) x x' a'
      end
    end.
Proof. reflexivity. Qed.
Lemma tr_run ls : exact_solve ls -> powell ls 4 2%nat tr_f (/ 10) 5%nat [0; 0] =
  {| so_converged := true; so_x := [3; 4]; so_xlast := [3; 4]; so_nfev := 3; so_nfev_rj := 3 |}.
Proof.
  intros H. unfold powell, trust.
  assert (G0 : lin (-1) 0 (fst (tr_f [0; 0])) (fst (tr_f [0; 0])) = [3; 4]) by (unfold lin, tr_f; cbn; repeat (f_equal; try lra)).
  assert (G1 : mvT 2 (snd (tr_f [0; 0])) (fst (tr_f [0; 0])) = [-3; -4]) by (unfold mvT, tr_f; cbn; repeat (f_equal; try lra)).
  assert (S0 : small_norm 2 (/ 10) (norm2 (fst (tr_f [0; 0]))) = false) by (unfold small_norm, norm2, tr_f; cbn; destruct Rle_dec; [lra|reflexivity]).
  rewrite S0. rewrite go_S. cbv zeta. rewrite G0, G1. change (snd (tr_f [0; 0])) with [1; 0; 0; 1]. rewrite (ls_id ls 3 4 H).
  set (ms := measured 2 (fst (tr_f [0; 0])) [1; 0; 0; 1] [-3; -4] (Some [3; 4])).
  assert (M1 : ms_r ms = 25) by (unfold ms, measured, norm2, tr_f; cbn; lra).
  assert (M2 : ms_g ms = 25) by (unfold ms, measured, norm2; cbn; lra).
  assert (M3 : ms_Jg ms = 25) by (unfold ms, measured, norm2; cbn; lra).
  assert (M4 : ms_nr ms = Some (25, -25)) by (unfold ms, measured, norm2, ip; cbn; repeat (f_equal; try lra)).
  clearbody ms.
  assert (S5 : sqrt 25 = 5) by (replace 25 with (5 * 5) by lra; apply sqrt_square; lra).
  assert (C0 : powell_choose 4 ms = Some (0, - (4 / 5))).
  { unfold powell_choose. rewrite M4, M2, M3. destruct Rle_dec; [lra|]. destruct Rle_dec as [_|N]; [now rewrite S5|exfalso; apply N; lra]. }
  rewrite C0. set (x1 := lin 1 1 [0; 0] (lin 0 (- (4 / 5)) [3; 4] [-3; -4])).
  assert (X1 : x1 = [12 / 5; 16 / 5]) by (unfold x1, lin; cbn; repeat (f_equal; try lra)). clearbody x1. subst x1.
  assert (N1 : norm2 (fst (tr_f [12 / 5; 16 / 5])) = 1) by (unfold norm2, tr_f; cbn; lra). rewrite N1.
  assert (S1 : small_norm 2 (/ 10) 1 = false) by (unfold small_norm; destruct Rle_dec; [lra|reflexivity]). rewrite S1.
  assert (J0 : powell_judge 4 ms 1 = (true, Some (2 * 4))) by (unfold powell_judge; rewrite M1; destruct Rle_dec; [lra|reflexivity]). rewrite J0. rewrite go_S. cbv zeta.
  assert (H0 : lin (-1) 0 (fst (tr_f [12 / 5; 16 / 5])) (fst (tr_f [12 / 5; 16 / 5])) = [3 / 5; 4 / 5]) by (unfold lin, tr_f; cbn; repeat (f_equal; try lra)).
  rewrite H0. change (snd (tr_f [12 / 5; 16 / 5])) with [1; 0; 0; 1]. rewrite (ls_id ls (3 / 5) (4 / 5) H). clear M1 M2 M3 M4 C0 J0.
  set (g := mvT 2 [1; 0; 0; 1] (fst (tr_f [12 / 5; 16 / 5]))). assert (LG : g = [- (3 / 5); - (4 / 5)]) by (unfold g, mvT, tr_f; cbn; repeat (f_equal; try lra)). clearbody g. subst g.
  match goal with |- context [powell_choose _ ?m] => set (ms' := m) end.
  assert (M4 : exists z, ms_nr ms' = Some (1, z)) by (eexists; unfold ms', measured, norm2, ip; cbn; f_equal; f_equal; lra).
  clearbody ms'. destruct M4 as [z M4].
  assert (C1 : powell_choose (2 * 4) ms' = Some (1, 0)) by (unfold powell_choose; rewrite M4; destruct Rle_dec; [reflexivity|lra]). rewrite C1.
  set (x2 := lin 1 1 [12 / 5; 16 / 5] (lin 1 0 [3 / 5; 4 / 5] [- (3 / 5); - (4 / 5)])).
  assert (X2 : x2 = [3; 4]) by (unfold x2, lin; cbn; repeat (f_equal; try lra)). clearbody x2. subst x2.
  assert (N2 : norm2 (fst (tr_f [3; 4])) = 0) by (unfold norm2, tr_f; cbn; lra). rewrite N2.
  assert (S2 : small_norm 2 (/ 10) 0 = true) by (unfold small_norm; destruct Rle_dec; [reflexivity|lra]). rewrite S2. reflexivity.
Qed.
(** exact linear solvers exist *)
Definition the_ls (n : nat) (J r : list R) : option (list R) :=
  match excluded_middle_informative (exists! d, List.length d = n /\ mv n J d = r) with
  | left H => Some (proj1_sig (constructive_definite_description _ H))
  | right _ => None
  end.
Lemma the_ls_exact : exact_solve the_ls.
Proof.
  intros n J r d L. unfold the_ls. destruct excluded_middle_informative as [H|N].
  - destruct (constructive_definite_description _ H) as [d0 [L0 E0]]. cbn [proj1_sig]. split.
    + intros E. apply (f_equal (fun o => match o with Some x => x | None => d end)) in E. subst d0. split; [exact L0|]. split; [exact E0|].
      destruct H as (d1 & [L1 E1] & U). intros d' L' E'. transitivity d1; [symmetry|]; apply U; split; assumption.
    + intros (Ld & Ed & U). f_equal. apply U; assumption.
  - split; [discriminate|]. intros (Ld & Ed & U). exfalso. apply N. exists d. split; [split; assumption|]. intros d' [L' E']. symmetry. now apply U.
Qed.
