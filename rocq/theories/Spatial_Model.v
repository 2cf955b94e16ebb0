(** Model of the spatial slicers (rubin_sim/maf/slicers/base_spatial_slicer.py, user_points_slicer.py, healpix_slicer.py and
    healpix_subset_slicer.py), of saving, restoring and JSON output of a slicer (base_slicer.py) and of the construction and comparison of
    OneDSlicer.  Angles are reals.  The k-d tree of rubin_scheduler is a test of the distance and an arbitrary order; the camera footprint,
    healpix (pixel centres, valid nsides) and galactic coordinates are arguments.  Negative indices of slices are not modelled. *)
From Coq Require Import Reals.
From Verif Require Import Base.
From Verif Require SelfCat_Model.
Open Scope R_scope.

(** np.radians; rubin_scheduler's _xyz_from_ra_dec and xyz_angular_radius are as those of selfcal/generate_catalog.py *)
Definition radians (x : R) : R := x * PI / 180.
Definition xyz (ra dec : R) : R * R * R := SelfCat_Model.treexyz ra dec.
Definition chord (p q : R * R * R) : R := SelfCat_Model.chord p q.
Definition angular_radius (radius : R) : R := chord (1, 0, 0) (xyz (radians radius) 0).

(** slice_points: a dictionary of single values and of arrays; an element of an array is a number, an integer or a row *)
Inductive val := Num (x : R) | Id (n : Z) | Row (l : list R).
Inductive entry := Single (v : val) | Array (l : list val).
Definition points := list (string * entry).
(** the simulated visits: named columns; a column that is not there raises ValueError *)
Definition table := list (string * list R).
Definition column (t : table) (c : string) : result (list R) := match dget String.eqb t c with Some l => Ok l | None => Err ValueError end.

Inductive cls := UserPoints | Healpix | HealpixSubset.
(** the attributes of a slicer; those of a HealpixSlicer are not used by UserPointsSlicer *)
Record slicer := { s_class : cls; s_lon : string; s_lat : string; s_rot : string; s_deg : bool; s_radius : R; s_camera : bool; s_camera_radius : R;
                   s_camera_file : option string; s_nside : Z; s_cache : bool; s_hpid : list nat; s_points : points; s_nslice : nat; s_shape : nat }.
(** what is needed to make one again *)
Record init := { i_ra : list R; i_dec : list R; i_nside : Z; i_hpid : list nat; i_lon : string; i_lat : string; i_radius : R }.

Section Slicers.
  (** galactic coordinates; hp.pix2ang (theta, phi); hp.isnsideok; hp.nside2npix *)
  Context (galactic : R -> R -> R * R) (pix2ang : Z -> nat -> R * R) (isnsideok : Z -> bool) (npix : Z -> nat).
  (** UserPointsSlicer.__init__, lines 60-118, and its slicer_init *)
  Definition user_points (ra dec : list R) (lon lat : string) (deg : bool) (radius : R) (camera : bool) (camera_radius : R) (file : option string) (rot : string) : result (slicer * init) :=
    if negb (Nat.eqb (length ra) (length dec)) then Err ValueError
    else let ra := map radians ra in let dec := map radians dec in
         let gal := map (fun q => galactic (fst q) (snd q)) (combine ra dec) in
         let n := length ra in
         Ok ({| s_class := UserPoints; s_lon := lon; s_lat := lat; s_rot := rot; s_deg := deg; s_radius := radius; s_camera := camera; s_camera_radius := camera_radius;
                s_camera_file := file; s_nside := 0; s_cache := false; s_hpid := [];
                s_points := [("sid", Array (map (fun i => Id (Z.of_nat i)) (seq 0 n))); ("ra", Array (map Num ra)); ("dec", Array (map Num dec));
                             ("gall", Array (map (fun g => Num (fst g)) gal)); ("galb", Array (map (fun g => Num (snd g)) gal))]%string;
                s_nslice := n; s_shape := n |},
             {| i_ra := ra; i_dec := dec; i_nside := 0; i_hpid := []; i_lon := lon; i_lat := lat; i_radius := radius |}).
  (** _pix2radec, healpix_slicer.py lines 179-189 *)
  Definition pix2radec (nside : Z) (i : nat) : R * R := let '(lat, ra) := pix2ang nside i in (ra, PI / 2 - lat).
  (** HealpixSlicer.__init__, lines 90-162, and its slicer_init *)
  Definition healpix (nside : Z) (lon lat : string) (deg cache : bool) (radius : R) (camera : bool) (camera_radius : R) (file : option string) (rot : string) : result (slicer * init) :=
    if negb (isnsideok nside) then Err ValueError
    else let n := npix nside in
         let pos := map (pix2radec nside) (seq 0 n) in
         let gal := map (fun q => galactic (fst q) (snd q)) pos in
         Ok ({| s_class := Healpix; s_lon := lon; s_lat := lat; s_rot := rot; s_deg := deg; s_radius := radius; s_camera := camera; s_camera_radius := camera_radius;
                s_camera_file := file; s_nside := nside; s_cache := cache; s_hpid := [];
                s_points := [("sid", Array (map (fun i => Id (Z.of_nat i)) (seq 0 n))); ("ra", Array (map (fun q => Num (fst q)) pos)); ("dec", Array (map (fun q => Num (snd q)) pos));
                             ("nside", Single (Id nside)); ("gall", Array (map (fun g => Num (fst g)) gal)); ("galb", Array (map (fun g => Num (snd g)) gal))]%string;
                s_nslice := n; s_shape := n |},
             {| i_ra := []; i_dec := []; i_nside := nside; i_hpid := []; i_lon := lon; i_lat := lat; i_radius := radius |}).
  (** HealpixSubsetSlicer.__init__, healpix_subset_slicer.py lines 152-191: a pixel beyond the last raises IndexError (line 191) *)
  Definition subset (nside : Z) (hpid : list nat) (lon lat : string) (deg cache : bool) (radius : R) (camera : bool) (camera_radius : R) (file : option string) (rot : string) : result (slicer * init) :=
    do r <- healpix nside lon lat deg cache radius camera camera_radius file rot;
    let '(s, i) := r in
    if existsb (fun p => Nat.leb (s_nslice s) p) hpid then Err IndexError
    else Ok ({| s_class := HealpixSubset; s_lon := s_lon s; s_lat := s_lat s; s_rot := s_rot s; s_deg := s_deg s; s_radius := s_radius s; s_camera := s_camera s;
                s_camera_radius := s_camera_radius s; s_camera_file := s_camera_file s; s_nside := s_nside s; s_cache := s_cache s; s_hpid := hpid; s_points := s_points s;
                s_nslice := s_nslice s; s_shape := s_shape s |},
             {| i_ra := i_ra i; i_dec := i_dec i; i_nside := i_nside i; i_hpid := hpid; i_lon := i_lon i; i_lat := i_lat i; i_radius := i_radius i |}).
  (** the mask of a HealpixSubsetSlicer, lines 190-191: True where there is no value *)
  Definition mask (s : slicer) : list bool := fold_left (fun m p => set_nth m p false) (s_hpid s) (repeat true (npix (s_nside s))).
  (** make_circle_subset_slicer, lines 17-51: the pixels; [separation] of rubin_scheduler and all in degrees *)
  Definition circle_pixels (separation : R -> R -> R -> R -> R) (ra_cen dec_cen radius : R) (nside : Z) : list nat :=
    filter (fun i => let '(ra, dec) := pix2radec nside i in
                     if Rle_dec (separation ra_cen dec_cen (ra * 180 / PI) (dec * 180 / PI)) radius then true else false) (seq 0 (npix nside)).

  (** * Setting up and slicing *)
  (** the tree: which coordinates it refuses, and the order of what it finds; the footprint: radius, file; ra, dec; ra, dec, rotation of the visit (radians) *)
  Context (tree_ok : list R -> list R -> bool) (order : list nat -> list nat) (in_camera : R -> option string -> R -> R -> R -> R -> R -> bool).
  Record ready := { d_ra : list R; d_dec : list R; d_rot : list R; d_points : points }.
  Definition run_maps (maps : list (points -> result points)) (p : points) : result points := fold_left (fun r m => do q <- r; m q) maps (Ok p).
  (** BaseSpatialSlicer.setup_slicer, lines 107-140 *)
  Definition setup_slicer (s : slicer) (t : table) (maps : list (points -> result points)) : result ready :=
    do p <- run_maps maps (s_points s);
    do lon <- column t (s_lon s); do lat <- column t (s_lat s); do rot <- column t (s_rot s);
    let conv := if s_deg s then map radians else fun l => l in
    if tree_ok (conv lon) (conv lat) then Ok {| d_ra := conv lon; d_dec := conv lat; d_rot := conv rot; d_points := p |} else Err ValueError.
  (** the slicer after it was set up: its slice_points are those that the maps gave (base_slicer.py lines 88-92) *)
  Definition installed (s : slicer) (d : ready) : slicer :=
    {| s_class := s_class s; s_lon := s_lon s; s_lat := s_lat s; s_rot := s_rot s; s_deg := s_deg s; s_radius := s_radius s; s_camera := s_camera s;
       s_camera_radius := s_camera_radius s; s_camera_file := s_camera_file s; s_nside := s_nside s; s_cache := s_cache s; s_hpid := s_hpid s;
       s_points := d_points d; s_nslice := s_nslice s; s_shape := s_shape s |}.
  (** self.slice_points[key][islice], of an array of numbers *)
  Definition at_point (p : points) (key : string) (i : nat) : result R :=
    match dget String.eqb p key with
    | Some (Array l) => do v <- arr_get l i; match v with Num x => Ok x | _ => Err TypeError end
    | Some (Single _) => Err TypeError
    | None => Err KeyError
    end.
  (** query_ball_point, lines 150-154 *)
  Definition near (s : slicer) (d : ready) (ra dec : R) : list nat :=
    order (filter (fun k => if Rle_dec (chord (xyz (nth k (d_ra d) 0) (nth k (d_dec d) 0)) (xyz ra dec)) (angular_radius (s_radius s)) then true else false) (seq 0 (length (d_ra d)))).
  (** lines 156-166 *)
  Definition found (s : slicer) (d : ready) (ra dec : R) : list nat :=
    let indices := near s d ra dec in
    if s_camera s then filter (fun k => in_camera (s_camera_radius s) (s_camera_file s) ra dec (nth k (d_ra d) 0) (nth k (d_dec d) 0) (nth k (d_rot d) 0)) indices else indices.
  (** lines 168-181: the information about the slice; what has as many elements as there are slices is taken to be per slice *)
  Fixpoint point_info (nslice i : nat) (all : points) (acc : points) : result points :=
    match all with
    | [] => Ok acc
    | (k, Array l) :: t => if Nat.eqb (length l) nslice then do v <- arr_get l i; point_info nslice i t (dset String.eqb acc k (Single v))
                           else point_info nslice i t (dset String.eqb acc k (Array l))
    | (k, Single v) :: t => if Nat.eqb 0 nslice then Err TypeError else point_info nslice i t (dset String.eqb acc k (Single v))
    end.
  Definition base_slice (s : slicer) (d : ready) (start : points) (i : nat) : result (list nat * points) :=
    do ra <- at_point (d_points d) "ra" i; do dec <- at_point (d_points d) "dec" i;
    let idxs := found s d ra dec in
    do info <- point_info (s_nslice s) i (d_points d) start;
    Ok (idxs, info).
  (** _slice_sim_data: BaseSpatialSlicer lines 141-182, HealpixSubsetSlicer lines 247-291 *)
  Definition slice (s : slicer) (d : ready) (i : nat) : result (list nat * points) :=
    let sid := ("sid"%string, Single (Id (Z.of_nat i))) in
    match s_class s with
    | HealpixSubset => let start := [sid; ("nside"%string, Single (Id (s_nside s)))] in
                       if existsb (Nat.eqb i) (s_hpid s) then base_slice s d start i else Ok ([], start)
    | _ => base_slice s d [sid] i
    end.
  (** the loop over the slices of a slicer: BaseSlicer.__next__ lines 124-136, HealpixSubsetSlicer.__next__ lines 213-228 *)
  Definition order_of_slices (s : slicer) : list nat := match s_class s with HealpixSubset => s_hpid s | _ => seq 0 (s_nslice s) end.
  Fixpoint all_slices (s : slicer) (d : ready) (l : list nat) : result (list (list nat * points)) :=
    match l with [] => Ok [] | i :: t => do x <- slice s d i; do r <- all_slices s d t; Ok (x :: r) end.
  Definition iterate (s : slicer) (d : ready) : result (list (list nat * points)) := all_slices s d (order_of_slices s).

  (** * Comparison *)
  Definition val_eqb (a b : val) : bool :=
    match a, b with
    | Num x, Num y => if Req_EM_T x y then true else false
    | Id m, Id n => Z.eqb m n
    | Row l, Row m => if list_eq_dec Req_EM_T l m then true else false
    | _, _ => false
    end.
  (** np.array_equal *)
  Fixpoint vals_eqb (a b : list val) : bool := match a, b with [], [] => true | x :: a', y :: b' => (val_eqb x y && vals_eqb a' b')%bool | _, _ => false end.
  Definition entry_eqb (a b : entry) : bool := match a, b with Single x, Single y => val_eqb x y | Array l, Array m => vals_eqb l m | _, _ => false end.
  Definition common (a b : slicer) : bool :=
    (String.eqb (s_lon b) (s_lon a) && String.eqb (s_lat b) (s_lat a) && (if Req_EM_T (s_radius b) (s_radius a) then true else false) &&
     Bool.eqb (s_camera b) (s_camera a) && String.eqb (s_rot b) (s_rot a) && Nat.eqb (s_shape b) (s_shape a))%bool.
  Definition entry_at_eqb (a b : points) (k : string) : bool := match dget String.eqb a k, dget String.eqb b k with Some x, Some y => entry_eqb x y | _, _ => false end.
  (** UserPointsSlicer.__eq__, lines 120-141 *)
  Definition eq_points (self other : slicer) : bool :=
    (forallb (fun q => entry_at_eqb (s_points other) (s_points self) (fst q)) (s_points other) &&
     match s_class other with UserPoints => true | _ => false end && Nat.eqb (s_nslice other) (s_nslice self) &&
     entry_at_eqb (s_points other) (s_points self) "ra" && entry_at_eqb (s_points other) (s_points self) "dec" && common self other)%bool.
  (** HealpixSlicer.__eq__, lines 164-177 *)
  Definition eq_healpix (self other : slicer) : bool :=
    (match s_class other with UserPoints => false | _ => true end && Z.eqb (s_nside other) (s_nside self) && common self other && Bool.eqb (s_cache other) (s_cache self))%bool.
  (** HealpixSubsetSlicer.__eq__, lines 193-206 *)
  Definition eq_subset (self other : slicer) : bool :=
    (match s_class other with HealpixSubset => true | _ => false end && Z.eqb (s_nside other) (s_nside self) &&
     (if list_eq_dec Nat.eq_dec (s_hpid other) (s_hpid self) then true else false) && common self other)%bool.
  Definition eq_method (a b : slicer) : bool := match s_class a with UserPoints => eq_points a b | Healpix => eq_healpix a b | HealpixSubset => eq_subset a b end.
  (** a == b of Python: if the class of b is a subclass of that of a, b's method is asked first *)
  Definition py_eq (a b : slicer) : bool := match s_class a, s_class b with Healpix, HealpixSubset => eq_method b a | _, _ => eq_method a b end.

  (** * Saving and restoring *)
  (** metric values: an array, or a masked one with its mask and fill value *)
  Inductive values := Plain (l : list R) | Masked (l : list R) (m : list bool) (fill : R).
  Record file := { f_values : list R; f_mask : option (list bool); f_fill : option R; f_init : init; f_class : cls; f_points : points; f_nslice : nat; f_shape : nat }.
  (** write_data, base_slicer.py lines 162-241, without the header *)
  Definition write_data (s : slicer) (i : init) (v : values) : file :=
    let '(data, m, fill) := match v with Plain l => (l, None, None) | Masked l m f => (l, Some m, Some f) end in
    {| f_values := data; f_mask := m; f_fill := fill; f_init := i; f_class := s_class s; f_points := s_points s; f_nslice := s_nslice s; f_shape := s_shape s |}.
  (** getattr(slicers, slicer_name)( **slicer_init), line 420: all that is not in slicer_init has its default *)
  Definition remake (c : cls) (i : init) : result (slicer * init) :=
    match c with
    | UserPoints => user_points (i_ra i) (i_dec i) (i_lon i) (i_lat i) true (i_radius i) true 1.94 None "rotSkyPos"
    | Healpix => healpix (i_nside i) (i_lon i) (i_lat i) true true (i_radius i) true 1.94 None "rotSkyPos"
    | HealpixSubset => subset (i_nside i) (i_hpid i) (i_lon i) (i_lat i) true true (i_radius i) true 1.94 None "rotSkyPos"
    end.
  (** read_data, lines 380-440; a masked array without a mask is [Masked] with an empty one *)
  Definition read_data (f : file) : result (list R * option (list bool) * option R * slicer * init) :=
    do r <- remake (f_class f) (f_init f);
    let '(s, i) := r in
    Ok (f_values f, f_mask f, f_fill f,
        {| s_class := s_class s; s_lon := s_lon s; s_lat := s_lat s; s_rot := s_rot s; s_deg := s_deg s; s_radius := s_radius s; s_camera := s_camera s;
           s_camera_radius := s_camera_radius s; s_camera_file := s_camera_file s; s_nside := s_nside s; s_cache := s_cache s; s_hpid := s_hpid s;
           s_points := f_points f; s_nslice := f_nslice f; s_shape := f_shape f |}, i).
End Slicers.

(** * output_json, base_slicer.py lines 243-378: the data *)
Inductive dtype := Float | Int | Other.
Inductive json := JNum (x : R) | JList (l : list json).
Definition nums (l : list R) : json := JList (map JNum l).
Definition to_deg (x : R) : R := x * 180 / PI.
(** None is "Cannot generate JSON" *)
Definition json_allowed (t : dtype) : bool := negb (negb (match t with Float => true | _ => false end) || match t with Int => true | _ => false end).
(** a spatial slicer with these positions: masked and unmasked values, lines 331-345 and 362-366 *)
Definition json_masked (ra dec data : list R) (m : list bool) : list json :=
  flat_map (fun q => let '(r, d, v, b) := q in if (b : bool) then [] else [nums [to_deg r; to_deg d; v]]) (combine (combine (combine ra dec) data) m).
Definition json_plain (ra dec data : list R) : list json := map (fun q => let '(r, d, v) := q in nums [to_deg r; to_deg d; v]) (combine (combine ra dec) data).
(** a slicer with bins, lines 346-358 and 367-372: without values the loop variable is not set; the last line takes element 0 of a number *)
Fixpoint json_bins_ (bins data : list R) (m : list bool) (i : nat) : result (list json) :=
  match data with
  | [] => Ok []
  | v :: t => do b <- arr_get bins i; do k <- arr_get m i; do r <- json_bins_ bins t m (S i); Ok ((if (k : bool) then nums [b; 0] else nums [b; v]) :: r)
  end.
Definition json_bins_masked (bins data : list R) (m : list bool) : result (list json) :=
  do l <- json_bins_ bins data m 0;
  match data with [] => Err UnboundLocalError | _ => do b <- arr_get bins (length data); Ok (l ++ [nums [b; 0]]) end.
Definition json_bins_plain (bins data : list R) : result (list json) :=
  do l <- json_bins_ bins data (repeat false (length data)) 0;
  match data with [] => Err UnboundLocalError | _ => do b <- arr_get bins (length data); Err IndexError end.
(** the values: np.ndarray, or np.ma.MaskedArray, whose mask may be the scalar np.ma.nomask *)
Inductive metric_array := NdArray (l : list R) | MaArray (l : list R) (m : option (list bool)).
Inductive where_ := Positions (ra dec : list R) | Edges (bins : list R).
(** zip over nomask is a TypeError, an element of it an IndexError *)
Definition output_json (t : dtype) (w : where_) (v : metric_array) : result (option (list json)) :=
  if negb (json_allowed t) then Ok None
  else match w, v with
       | Positions ra dec, MaArray l (Some m) => Ok (Some (json_masked ra dec l m))
       | Positions ra dec, MaArray l None => Err TypeError
       | Positions ra dec, NdArray l => Ok (Some (json_plain ra dec l))
       | Edges bins, MaArray l (Some m) => do x <- json_bins_masked bins l m; Ok (Some x)
       | Edges bins, MaArray l None => match l with [] => Err UnboundLocalError | _ => Err IndexError end
       | Edges bins, NdArray l => do x <- json_bins_plain bins l; Ok (Some x)
       end.

(** * OneDSlicer: construction and comparison, one_d_slicer.py lines 42-95 and 182-215 *)
Record one_d := { o_col : string; o_bins : option (list R); o_min : option R; o_max : option R; o_size : option R; o_set : option (list R) (* slice_points["bins"] *) }.
Definition is_some {A} (x : option A) : bool := match x with Some _ => true | None => false end.
(** warnings.warning does not exist (line 69) *)
Definition new_one_d (col : option string) (bins : option (list R)) (bmin bmax bsize : option R) : result one_d :=
  match col with
  | None => Err ValueError
  | Some c => if (is_some bins && (is_some bmin || is_some bmax || is_some bsize))%bool then Err AttributeError
              else Ok {| o_col := c; o_bins := bins; o_min := bmin; o_max := bmax; o_size := bsize; o_set := None |}
  end.
Definition reals_eqb (a b : list R) : bool := if list_eq_dec Req_EM_T a b then true else false.
Definition real_eqb (a b : R) : bool := if Req_EM_T a b then true else false.
Definition eq_one_d (a b : one_d) : bool :=
  if String.eqb (o_col a) (o_col b) then
    match o_set a, o_set b with
    | Some x, Some y => reals_eqb y x
    | _, _ => match o_bins a, o_bins b with
              | Some x, Some y => reals_eqb x y
              | _, _ => match o_size a, o_min a, o_max a, o_size b, o_min b, o_max b with
                        | Some s, Some l, Some h, Some s', Some l', Some h' => (real_eqb s s' && real_eqb l l' && real_eqb h h')%bool
                        | _, _, _, _, _, _ => false
                        end
              end
    end
  else false.
