(** The Fisher result for any number of bands (C366). *)
From Coq Require Import String Reals Lra Lia List Bool Psatz Sorted.
From Verif Require Import Base Plane_Spec Micro_Model Micro_Spec Micro_Props Micro_Props2 Micro_Proofs Micro_Props3 Micro_Props4 Micro_Props5 Web_Spec.
From Verif Require Web_Model Web_Proofs Web_Props Web_Props3.
Import ListNotations.
Open Scope R_scope.

Lemma add_bands_sum mags e n l (m : string -> R) : ev_own e = None -> forall bs, (forall f, In f bs -> Entry mags f (m f)) -> forall acc,
  exists r, add_bands mags e n l bs acc = Ok r /\
    forall i j, r i j = acc i j + fold_right Rplus 0 (map (fun f => fisher_matrix n (ev_peak e) (ev_te e) (ev_u0 e) (m f) (m f) l i j) bs).
Proof.
  intros O. induction bs as [|f bs IH]; intros H acc; [ exists acc; split; [ reflexivity | intros; cbn; ring ] | ].
  cbn [add_bands]. unfold fs_fb. rewrite O. unfold lookup. rewrite (proj1 (entry_get _ _ _) (H f (or_introl eq_refl))). cbn [bind fst snd].
  destruct (IH (fun g I => H g (or_intror I)) (fun i j => acc i j + fisher_matrix n (ev_peak e) (ev_te e) (ev_u0 e) (m f) (m f) l i j)) as (r & E & V).
  exists r. split; [ exact E | ]. intros i j. rewrite V. cbn [map fold_right]. ring.
Qed.
Lemma sum_zero {A} (g : A -> R) l : (forall x, g x = 0) -> fold_right Rplus 0 (map g l) = 0.
Proof. intro H. induction l as [|x l IH]; [ reflexivity | ]. cbn. rewrite H, IH. ring. Qed.
(** the matrix is the sum over the bands of the information of the visits [last_l] of the last band, with the magnitude of each band for both
    fluxes; its first three rows and columns are inverted *)
Theorem C366_bands inv mags b detect sp l first M u0 te t0 bs z last_l (m : string -> R) :
  Lit mags sp l first M -> Parameters sp u0 te t0 -> Allowed detect b -> NoEntry sp "apparent_m_no_blend_u" ->
  StronglySorted TextLt (bs ++ [z]) -> (forall f, In f (bs ++ [z]) <-> exists v, In v l /\ v_band v = f) -> (forall f, In f (bs ++ [z]) -> Entry mags f (m f)) ->
  Keeps (fun v => v_band v = z) l last_l ->
  forall F, (forall i j, F i j = fold_right Rplus 0 (map (fun f => fisher_matrix (length (bs ++ [z])) t0 te u0 (m f) (m f)
               (map (fun v => (v_mjd v - first, Ratio (M v) (v_m5 v))) last_l) i j) (bs ++ [z]))) ->
  F 0%nat 0%nat <> 0 -> F 1%nat 1%nat <> 0 -> F 2%nat 2%nat <> 0 ->
  run_fisher inv mags b detect sp l =
    match inv [[F 0%nat 0%nat; F 0%nat 1%nat; F 0%nat 2%nat]; [F 1%nat 0%nat; F 1%nat 1%nat; F 1%nat 2%nat]; [F 2%nat 0%nat; F 2%nat 1%nat; F 2%nat 2%nat]] with
    | None => Ok None
    | Some ((x :: _) :: _) => Ok (Some (sqrt x / te))
    | Some _ => Err IndexError
    end.
Proof.
  intros [Fi Sh] (Pu & Pc & Pp) A NE Srt Hb Hm Ke F EF N0 N1 N2.
  destruct (points_shows mags sp l first M Fi Sh) as (e & u1 & c1 & p1 & Po & Re & Eu & Ec & Ep & Ku & Kc & Kp).
  rewrite <- (entry_unique _ _ _ _ Pu Ku) in Eu. rewrite <- (entry_unique _ _ _ _ Pc Kc) in Ec. rewrite <- (entry_unique _ _ _ _ Pp Kp) in Ep.
  unfold run_fisher. rewrite (allowed_ok _ _ A). cbn [bind]. rewrite Po. cbn [bind].
  assert (B : bands (map (point_of M first) l) = bs ++ [z]).
  { rewrite bands_points. apply (Web_Proofs.sorted_same TextLt); [ apply Web_Proofs.textlt_irrefl | intros x y w T; apply (Web_Proofs.textlt_trans _ _ T) | | assumption | ].
    - apply Web_Proofs.unique_sorted.
    - intro x. rewrite Web_Proofs.unique_in, in_map_iff, Hb. split; intros (v & P & Q); exists v; auto. }
  rewrite B.
  assert (O : ev_own e = None).
  { unfold read, lookup in Re. apply noentry_get in NE. apply entry_get in Ku, Kc, Kp. rewrite Ku, Kc, Kp in Re. cbn [bind] in Re. injection Re as <-. cbn [ev_own].
    unfold no_blend_key. cbn [append]. rewrite NE. reflexivity. }
  assert (U : used (map (point_of M first) l) = map (fun v => (v_mjd v - first, Ratio (M v) (v_m5 v))) last_l).
  { unfold used. rewrite B, last_last. unfold of_band. clear -Ke. induction Ke as [|v l o H K IH|v l o H K IH]; [ reflexivity | | ]; cbn [map filter]; cbn [point_of o_band].
    - rewrite H, String.eqb_refl. cbn [map]. rewrite IH. reflexivity.
    - destruct (String.eqb_spec (v_band v) z); [ contradiction | exact IH ]. }
  rewrite U. destruct (add_bands_sum mags e (length (bs ++ [z])) (map (fun v => (v_mjd v - first, Ratio (M v) (v_m5 v))) last_l) m O (bs ++ [z]) Hm (fun _ _ => 0)) as (G & EG & VG).
  rewrite EG. cbn [bind].
  assert (GF : forall i j, G i j = F i j) by (intros; rewrite VG, EF, Eu, Ec, Ep; ring).
  assert (Z : forall i, (3 <= i)%nat -> G i i = 0) by (intros i Hi; rewrite VG, sum_zero; [ ring | intro; apply C366_no_fluxes; left; exact Hi ]).
  assert (K : kept (2 * length (bs ++ [z]) + 3) G = [0; 1; 2]%nat).
  { unfold kept. rewrite Nat.add_comm. change (seq 0 (3 + 2 * length (bs ++ [z]))) with (0 :: 1 :: 2 :: seq 3 (2 * length (bs ++ [z])))%nat. cbn [filter]. rewrite !GF.
    destruct (Req_EM_T (F 0%nat 0%nat) 0); [ contradiction | ]. destruct (Req_EM_T (F 1%nat 1%nat) 0); [ contradiction | ]. destruct (Req_EM_T (F 2%nat 2%nat) 0); [ contradiction | ].
    do 3 f_equal. assert (W : forall k s, (3 <= s)%nat -> filter (fun i => if Req_EM_T (G i i) 0 then false else true) (seq s k) = []).
    { induction k as [|k IH]; intros s Hs; [ reflexivity | ]. cbn [seq filter]. destruct (Req_EM_T (G s s) 0) as [_|N]; [ apply IH; lia | exfalso; apply N, Z, Hs ]. }
    apply W. lia. }
  unfold submatrix. rewrite K. cbn [map]. rewrite !GF, Ec.
  destruct (inv _) as [[|[|x r] cov]|]; reflexivity.
Qed.
Print Assumptions C366_bands.
(** a case: two bands, of which r is the last *)
Example C366_sum_case : Lit mags1 sp1 six 0 M1 /\ StronglySorted TextLt ["g"; "r"]%string /\ (forall f, In f ["g"; "r"]%string <-> exists v, In v six /\ v_band v = f) /\
  (forall f, In f ["g"; "r"]%string -> Entry mags1 f 24) /\ Keeps (fun v => v_band v = "r"%string) six [at_day 9 30 "r"; at_day 10 30 "r"; at_day 11 30 "r"].
Proof.
  split; [ | split; [ | split; [ | split ] ] ].
  - apply lit1; [ exists (at_day 0 30 "g"); split; [ left | ]; reflexivity | ]. intros v I; cbn in I; intuition (subst; cbn; try lra; auto).
  - repeat constructor.
  - intro f. split.
    + intros [<-|[<-|[]]]; [ exists (at_day 0 30 "g") | exists (at_day 9 30 "r") ]; split; try reflexivity; cbn; auto.
    + intros (v & I & <-). cbn in I. intuition (subst; cbn; auto).
  - intros f [<-|[<-|[]]]; apply entry_get; reflexivity.
  - unfold six. apply K_no; [ cbn; discriminate | ]. repeat (apply K_yes; [ reflexivity | ]). apply K_nil.
Qed.
