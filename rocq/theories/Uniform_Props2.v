(** Cases of C398-C402. *)
From Coq Require Import String.
From Verif Require Import Base Uniform_Model Uniform_Spec Uniform_Proofs Uniform_Props.
From Verif Require Plane_Spec Template_Spec Template_Model Small_Model Lens_Model Depth_Model.
From Coq Require Import Reals Lra Lia List Permutation Sorted.
Import ListNotations.
Open Scope R_scope.

Lemma med_one x : med [x] = x.
Proof.
  apply (median_unique [x]); [apply med_is; discriminate|]. exists [x], 0%nat, 0, x, x.
  split; [apply Permutation_refl|]. split; [repeat constructor|]. cbn. repeat split; try lra; try (right; auto).
Qed.
Lemma med_three x y z : x <= y <= z -> med [x; y; z] = y.
Proof.
  intros (A & B). apply (median_unique [x; y; z]); [apply med_is; discriminate|]. exists [x; y; z], 1%nat, 0, y, z.
  split; [apply Permutation_refl|]. split; [repeat (apply SSorted_cons || apply SSorted_nil || apply Forall_cons || apply Forall_nil); lra|]. cbn [length Nat.sub INR nth_error]. repeat split; try lra; try (left; reflexivity).
Qed.
(** pixels 0 to 2 are at high latitude, 3 to 5 are not; one residual is 9, the others are 0 *)
Definition sky : list star := map (fun p => {| s_pix := p; s_mag := if (p =? 2)%nat then 29 else 20; s_fit := 20 |}) [0; 1; 2; 3; 4; 5]%nat.
Definition lat (p : nat) : R := if (p <? 3)%nat then -45 else 10.
Lemma sky_resid : resid sky = [(0%nat, 0); (1%nat, 0); (2%nat, 9); (3%nat, 0); (4%nat, 0); (5%nat, 0)].
Proof.
  unfold resid. cbn [sky map s_mag s_fit s_pix Nat.eqb].
  assert (M : med [20 - 20; 20 - 20; 29 - 20; 20 - 20; 20 - 20; 20 - 20] = 0).
  { apply (median_unique [20 - 20; 20 - 20; 29 - 20; 20 - 20; 20 - 20; 20 - 20]); [apply med_is; discriminate|].
    exists [20 - 20; 20 - 20; 20 - 20; 20 - 20; 20 - 20; 29 - 20], 2%nat, (1/2), (20 - 20), (20 - 20).
    split; [apply perm_skip, perm_skip|].
    - apply (Permutation_cons_app [20 - 20; 20 - 20; 20 - 20] []). apply Permutation_refl.
    - split; [repeat (apply SSorted_cons || apply SSorted_nil || apply Forall_cons || apply Forall_nil); lra|]. cbn [length Nat.sub INR nth_error]. repeat split; try lra; try (left; reflexivity). }
  rewrite M. repeat (apply f_equal2; [apply f_equal2; [reflexivity|lra]|]). reflexivity.
Qed.
Lemma sky_map : resid_map 12 (resid sky) = [(0%nat, 0); (1%nat, 0); (2%nat, 9); (3%nat, 0); (4%nat, 0); (5%nat, 0)].
Proof. rewrite sky_resid. unfold resid_map. cbn. rewrite !med_one. reflexivity. Qed.
Lemma sky_high : map snd (filter (fun x => if Rlt_dec 30 (Rabs (lat (fst x))) then true else false) (resid_map 12 (resid sky))) = [0; 0; 9].
Proof.
  rewrite sky_map. cbn [filter fst].
  assert (H : forall p, (p < 3)%nat -> (if Rlt_dec 30 (Rabs (lat p)) then true else false) = true).
  { intros p L. unfold lat. apply Nat.ltb_lt in L. rewrite L. rewrite Rabs_left by lra. destruct (Rlt_dec 30 (- -45)); [reflexivity|lra]. }
  assert (K : forall p, (3 <= p)%nat -> (if Rlt_dec 30 (Rabs (lat p)) then true else false) = false).
  { intros p L. unfold lat. apply Nat.ltb_ge in L. rewrite L. rewrite Rabs_right by lra. destruct (Rlt_dec 30 10); [lra|reflexivity]. }
  rewrite !H, !K by lia. reflexivity.
Qed.
Lemma sky_scatter q : Scatter q [0; 0; 9] 0.
Proof.
  assert (M : Median [0; 0; 9] 0).
  { pose proof (med_is [0; 0; 9] (fun X => eq_ind [0; 0; 9] (fun l => match l with [] => False | _ => True end) I [] X)) as M. rewrite med_three in M by lra. exact M. }
  exists 0, 0. split; [exact M|]. split; [|unfold Rdiv; ring].
  cbn [map]. rewrite !Rminus_0_r, Rabs_R0, (Rabs_right 9) by lra. exact M.
Qed.
(** one in three pixels at high latitude is an outlier, and the value is 1/6 *)
Example C400_case : exists v, frac_high (summarize (67/100) lat 30 4 12 sky) = Some v /\ v = 1/6 /\ v * INR 3 < INR 1.
Proof.
  assert (CN : Plane_Spec.CountP (fun x => 4 * 0 < Rabs x) [0; 0; 9] 1).
  { apply Plane_Spec.CP_out; [rewrite Rabs_R0; lra|]. apply Plane_Spec.CP_out; [rewrite Rabs_R0; lra|].
    apply Plane_Spec.CP_in; [rewrite Rabs_right; lra|constructor]. }
  destruct (C400_high_partial (67/100) lat 30 4 12 sky _ _ eq_refl (eq_sym sky_high)) as (s & n & v & SC & C & F & E); [discriminate|].
  pose proof (C400_high_refuted (67/100) lat 30 4 12 sky _ _ 0 1 v eq_refl (eq_sym sky_high) (sky_scatter _) CN) as L.
  exists v. split; [exact F|].
  assert (S0 : s = 0).
  { assert (NE : [0; 0; 9] <> []) by (intros X; discriminate X).
    assert (A : mad (67/100) [0; 0; 9] = Some s) by (apply mad_is; split; [exact NE|exact SC]).
    assert (B : mad (67/100) [0; 0; 9] = Some 0) by (apply mad_is; split; [exact NE|apply sky_scatter]).
    rewrite A in B. injection B as B. exact B. }
  subst s.
  assert (N1 : n = 1%nat).
  { clear -C. inversion C as [|? ? ? P _|? ? ? _ C1]; subst; [rewrite Rabs_R0 in P; lra|]. inversion C1 as [|? ? ? P _|? ? ? _ C2]; subst; [rewrite Rabs_R0 in P; lra|].
    inversion C2 as [|? ? ? _ C3|? ? ? P _]; subst; [inversion C3; reflexivity|]. exfalso. apply P. rewrite Rabs_right; lra. }
  subst n. rewrite sky_map in E. cbn [length INR] in E. split; [lra|]. cbn [INR]. lra.
Qed.
Example C399_case : scatter_high (summarize (67/100) lat 30 4 12 sky) = Some 0.
Proof.
  apply (C399_scatter (67/100) lat 30 4 12 sky 0). exists [0; 0; 9]. split; [symmetry; exact sky_high|]. split; [discriminate|].
  replace (0 / 1000) with 0 by field. apply sky_scatter.
Qed.
Example C398_case : resid (map (moved 3) sky) = [(0%nat, 0); (1%nat, 0); (2%nat, 9); (3%nat, 0); (4%nat, 0); (5%nat, 0)].
Proof. rewrite resid_moved. apply sky_resid. Qed.

(** a visit in each of the six bands, and in i a depth beyond the limit *)
Definition six : Lens_Model.table :=
  {| Lens_Model.t_cols := ["band"]%string;
     Lens_Model.t_rows := map (fun b => {| Lens_Model.v_str := fun _ => b; Lens_Model.v_m5 := 27; Lens_Model.v_exp := 30; Lens_Model.v_airmass := 1;
                                           Lens_Model.v_sky := 21; Lens_Model.v_nexp := 1 |}) ["u"; "g"; "r"; "i"; "z"; "y"]%string |}.
Example C402_case : forall gal : Lens_Model.table -> R -> result (option R),
  (forall t e, gal t e = Ok (Some 1000)) ->
  num_gal gal [("i", 2)]%string "band" "i" 6 26 (1/5) (Some (-1)) 1 six = Ok (Some 1000) /\
  num_gal gal [("i", 2)]%string "band" "i" 6 26 (1/5) (Some (-666)) 1 six = Ok (Some (-666)).
Proof.
  intros gal G. split.
  - erewrite C402_badval_refuted; [apply G|intros C; injection C as C; lra|reflexivity|lra].
  - unfold num_gal, Lens_Model.exgal_with_cuts, Lens_Model.rltb. destruct (Rlt_dec (1/5) 1); [|lra]. cbn [bind].
    unfold Lens_Model.neqb, Lens_Model.reqb. destruct (Req_EM_T (-666) (-666)); [reflexivity|congruence].
Qed.
