(** Model of the metric of young stars, rubin_sim/maf/maf_contrib/young_stellar_objects_metric.py.
    Numbers are real numbers (exact).  The limit by crowding (CrowdingM5Metric.run), the area of a pixel and the numerical integral (scipy's quad) are arguments. *)
From Coq Require Import String.
From Verif Require Import Base.
From Verif Require Depth_Model Astrom_Model Maps_Model.
From Coq Require Import Reals.
Open Scope R_scope.

Record visit := { v_band : string; v_m5 : R }.
Definition dict := list (string * R).
Definition key (d : dict) (k : string) : result R := match dget String.eqb d k with Some x => Ok x | None => Err KeyError end.

(** the coadded depth of a band, lines 161-163; [None] is minus infinity (the logarithm of an empty sum) *)
Definition depth_m5 (vs : list visit) (b : string) : option R :=
  match filter (fun v => String.eqb (v_band v) b) vs with
  | [] => None
  | l => Some (5/4 * Depth_Model.log10 (Astrom_Model.rsum (map (fun v => Rpower 10 (4/5 * v_m5 v)) l)))
  end.
(** with crowding, lines 164-168: [crowd] is the limit of a band, [None] if the crowding error is not positive *)
Definition depth (crowd : option (string -> R)) (vs : list visit) (b : string) : option R :=
  match crowd, depth_m5 vs b with
  | Some c, Some d => Some (Rmin d (c b))
  | None, d => d
  | Some _, None => None
  end.
(** the magnitude at the required signal to noise, lines 174-175 *)
Definition m_app (snr : R) (d : option R) : option R :=
  match d with Some x => Some (- (5/2) * Depth_Model.log10 (snr / 5) + x) | None => None end.
(** the dust: all of it in front of the star, [ebv] and [ax1] being those of the slice point and of DustValues, or the map in
    three dimensions *)
Inductive dust := Flat (ax1 : dict) (ebv : R) | Deep (distance_at : string -> option R -> result R).
(** the map in three dimensions at a slice point, DustMap3D.distance_at_dmag, dust_map_3d.py:141-190, modelled in Maps_Model.  For
    minus infinity all differences are infinite, so that numpy's argmin is 0, and the distance beyond the map is 0: the first
    distance, if positive *)
Definition dust_3d (r_x : dict) (dists ebvs : list R) : dust := Deep (fun b m =>
  match m with
  | Some x => Maps_Model.dist_at_point r_x b x dists ebvs
  | None => do _ <- key r_x b; match dists, ebvs with d :: _, _ :: _ => Ok (Rmax d 0) | _, _ => Err ValueError end
  end).
(** the distance in parsec, lines 176-188; the power of minus infinity is 0 *)
Definition distance (du : dust) (b : string) (mag : R) (m : option R) : result R :=
  match du with
  | Flat ax1 ebv => do a <- key ax1 b;
                    Ok (match m with Some x => 10 * sqrt (Rpower 100 ((x - a * ebv - mag) / 5)) | None => 0 end)
  | Deep f => f b (match m with Some x => Some (x - mag) | None => None end)
  end.
Fixpoint distances (du : dust) (crowd : option (string -> R)) (snrs : dict) (vs : list visit) (mags : dict) : result (list R) :=
  match mags with
  | [] => Ok []
  | (b, mag) :: t =>
      do s <- key snrs b;
      do x <- distance du b mag (m_app s (depth crowd vs b));
      do r <- distances du crowd snrs vs t;
      Ok (x :: r)
  end.
(** lines 189-191: the smallest, in kpc; the minimum of nothing raises *)
Definition final_distance (du : dust) (crowd : option (string -> R)) (snrs : dict) (vs : list visit) (mags : dict) : result R :=
  do l <- distances du crowd snrs vs mags;
  match l with [] => Err ValueError | x :: t => Ok (fold_left Rmin t x / 1000) end.

(** StarDensity, lines 30-50 *)
Definition star_density (gall galb r : R) : R :=
  let r_galac := sqrt ((8178/1000 - r * cos gall) * (8178/1000 - r * cos gall) + (r * sin gall) * (r * sin gall)) in
  let exponent := -1 * r * Rabs (sin galb) / (3/10) - r_galac / (26/10) in
  80000000 / (4 * PI * (3/10) * (26/10 * (26/10))) * (r * r) * exp exponent.

(** NYoungStarsMetric.run, lines 142-201; [pixel] is the area of the pixel if the slice point has "nside", [quad f a b] the integral *)
Definition run (quad : (R -> R) -> R -> R -> R) (return_distance : bool) (galb_limit badval : R) (du : dust) (crowd : option (string -> R))
  (snrs mags : dict) (pixel : option R) (gall galb : R) (vs : list visit) : result R :=
  let area := match pixel with Some a => a | None => PI * ((175/100 * PI / 180) * (175/100 * PI / 180)) end in
  if Rlt_dec galb_limit (Rabs galb) then Ok badval
  else
    do d <- final_distance du crowd snrs vs mags;
    if return_distance then Ok d else Ok (quad (star_density gall galb) 0 d * area).
