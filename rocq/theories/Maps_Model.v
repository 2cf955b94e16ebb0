(** Model of the maps that add information to slice points: rubin_sim/maf/maps/*.py.  Numbers are reals (rounding is not
    modelled).  Files, directories, healpy's ang2pix, get_interp_val and reorder, and the tree of the TRILEGAL map are arguments;
    warnings and printing are left out.  Function attributes (eb_vhp.nside ...) are a state that is passed along. *)
From Coq Require Import String Ascii Reals ZArith List.
From Verif Require Import Base Depth_Model.
From Verif Require Import Template_Model.  (* rleb, rltb *)
Import ListNotations.
Open Scope R_scope.

Definition has {A} (o : option A) : bool := match o with Some _ => true | None => false end.
(** [array[indices]]: IndexError if one is outside *)
Fixpoint take {A} (l : list A) (ix : list nat) : result (list A) :=
  match ix with [] => Ok [] | i :: t => do x <- arr_get l i; do r <- take l t; Ok (x :: r) end.
(** [None] in an arithmetic expression *)
Definition given {A} (o : option A) : result A := match o with Some x => Ok x | None => Err TypeError end.

(** * Slice points: the dictionary slicer.slice_points *)
Inductive value := Num (l : list R) | Rows (l : list (list R)).
Record points := { sp_nside : option Z; sp_sid : list nat; sp_ra : list R; sp_dec : list R; sp_info : list (string * value) }.
(** [slice_points[key] = v]; keys are never "nside", "sid", "ra" or "dec" *)
Definition put (s : points) (key : string) (v : value) : points :=
  {| sp_nside := sp_nside s; sp_sid := sp_sid s; sp_ra := sp_ra s; sp_dec := sp_dec s;
     sp_info := dset String.eqb (sp_info s) key v |}.

Section Sphere.
(** [hp.ang2pix(nside, theta, phi)] and the neighbours with weights of [hp.get_interp_val] in a map of that many pixels *)
Context (ang2pix : Z -> R -> R -> nat) (neighbours : nat -> R -> R -> list (nat * R)).

(** radec2pix, maf_utils.py:193-212 *)
Definition radec2pix (nside : Z) (ra dec : list R) : list nat :=
  map (fun p => ang2pix nside (PI / 2 - snd p) (fst p)) (combine ra dec).
(** get_interp_val of one map *)
Definition interp_val (m : list R) (ra dec : list R) : list R :=
  map (fun p => rsum (map (fun n => snd n * nth (fst n) m 0) (neighbours (length m) (PI / 2 - snd p) (fst p)))) (combine ra dec).

(** * eb_vhp, ebv_hp.py:12-64 *)
(** the attributes of the function.  [e_dustmap] is the attribute "dustmap" that line 48 looks for; the map is stored as
    "dustMap" (line 51) *)
Record ebv_state := { e_nside : option Z; e_dustMap : option (list R); e_dustmap : option (list R) }.
Definition ebv_fresh : ebv_state := {| e_nside := None; e_dustMap := None; e_dustmap := None |}.
(** [load dir nside] is the array of the file dust_nside_<nside>.npz in [dir] *)
Definition eb_vhp (load : string -> Z -> result (list R)) (default_dir : string) (st : ebv_state)
    (nside : Z) (ra dec : option (list R)) (pixels : option (list nat)) (interp : bool) (map_path : option string)
    : ebv_state * result (list R) :=
  if negb (has ra) && negb (has dec) && negb (has pixels) then (st, Err RuntimeError)
  else
    let dir := match map_path with Some p => p | None => default_dir end in
    let n := match e_nside st with Some n => n | None => nside end in
    let look m :=
      if interp then do d <- given dec; do r <- given ra; Ok (interp_val m r d)
      else match pixels with
           | Some ix => take m ix
           | None => do d <- given dec; do r <- given ra; take m (radec2pix nside r d)
           end in
    if negb (has (e_dustmap st)) || negb (n =? nside)%Z then
      match load dir nside with
      | Err e => ({| e_nside := Some nside; e_dustMap := e_dustMap st; e_dustmap := e_dustmap st |}, Err e)
      | Ok m => ({| e_nside := Some nside; e_dustMap := Some m; e_dustmap := e_dustmap st |}, look m)
      end
    else ({| e_nside := Some n; e_dustMap := e_dustMap st; e_dustmap := e_dustmap st |},
          match e_dustMap st with Some m => look m | None => Err AttributeError end).

(** DustMap.run, dust_map.py:41-66 *)
Record dust_map := { m_interp : bool; m_nside : Z; m_path : option string }.
Definition dust_run load default_dir (dm : dust_map) (st : ebv_state) (s : points) : ebv_state * result points :=
  let '(st', r) :=
    match sp_nside s with
    | Some n => eb_vhp load default_dir st n None None (Some (sp_sid s)) false (m_path dm)
    | None => eb_vhp load default_dir st (m_nside dm) (Some (sp_ra s)) (Some (sp_dec s)) None (m_interp dm) (m_path dm)
    end in
  (st', do v <- r; Ok (put s "ebv" (Num v))).

(** * ebv_3d_hp, ebv_3d_hp.py:14-132 *)
(** a file: its header and its rows, one per pixel *)
Record file3d := { f_nside : Z; f_nested : bool; f_dists : list (list R); f_ebvs : list (list R) }.
(** the attributes; line 70 looks for "map_file" ([h_map_file]), which is stored as "mapFile" *)
Record state3d := { h_mapFile : option string; h_map_file : option string; h_nside : option Z;
                    h_dists : option (list (list R)); h_ebvs : option (list (list R)) }.
Definition fresh3d : state3d := {| h_mapFile := None; h_map_file := None; h_nside := None; h_dists := None; h_ebvs := None |}.
(** [hp.reorder(column, "nest", "ring")] of all columns; [ring2nest n i] is the nested number of pixel [i] in a map of [n]
    pixels *)
Definition reorder (ring2nest : nat -> nat -> nat) (rows : list (list R)) : list (list R) :=
  map (fun i => nth (ring2nest (length rows) i) rows []) (seq 0 (length rows)).
(** lines 51-69; [data name] is the path in the data directory.  The exception of line 59 is a plain Exception. *)
Definition file_of (isfile : string -> bool) (data : string -> string) (nside : Z) (map_file : option string) : result string :=
  match map_file with
  | None => if (nside =? 64)%Z then Ok (data "merged_ebv3d_nside64_defaults.fits"%string)
            else if (nside =? 128)%Z then Ok (data "merged_ebv3d_nside128_defaults.fits"%string) else Err RuntimeError
  | Some f => Ok (if isfile f then f else if isfile (data f) then data f else f)
  end.
(** the columns of interpolated rows, lines 117-124 *)
Definition interp_rows (rows : list (list R)) (ra dec : list R) (n : nat) : list (list R) :=
  map (fun p => map (fun i =>
    rsum (map (fun w => snd w * nth i (nth (fst w) rows []) 0) (neighbours (length rows) (PI / 2 - snd p) (fst p)))) (seq 0 n))
    (combine ra dec).
(** lines 111-130, [nside] the local variable *)
Definition look3d (dists ebvs : list (list R)) (nside : Z) (ra dec : option (list R)) (pixels : option (list nat)) (interp : bool)
    : result (list (list R) * list (list R)) :=
  match pixels with
  | Some ix => do d <- take dists ix; do e <- take ebvs ix; Ok (d, e)
  | None =>
      if interp then
        do first <- arr_get dists 0; do r <- given ra; do d <- given dec;
        Ok (interp_rows dists r d (length first), interp_rows ebvs r d (length first))
      else do d <- given dec; do r <- given ra;
           let ix := radec2pix nside r d in do a <- take dists ix; do b <- take ebvs ix; Ok (a, b)
  end.
Definition ebv_3d_hp (isfile : string -> bool) (data : string -> string) (open : string -> result file3d)
    (ring2nest : nat -> nat -> nat) (st : state3d)
    (nside : Z) (map_file : option string) (ra dec : option (list R)) (pixels : option (list nat)) (interp : bool)
    : state3d * result (list (list R) * list (list R)) :=
  if negb (has ra) && negb (has dec) && negb (has pixels) then (st, Err RuntimeError)
  else
    match file_of isfile data nside map_file with
    | Err e => (st, Err e)
    | Ok file =>
        let st1 := if has (h_map_file st) then st
                   else {| h_mapFile := Some file; h_map_file := h_map_file st; h_nside := Some nside;
                           h_dists := h_dists st; h_ebvs := h_ebvs st |} in
        let changed := match h_mapFile st1 with Some f => negb (String.eqb file f) | None => true end in
        match h_dists st1, h_ebvs st1, changed with
        | Some dists, Some ebvs, false => (st1, look3d dists ebvs nside ra dec pixels interp)
        | _, _, _ =>
            let st2 := {| h_mapFile := Some file; h_map_file := h_map_file st1; h_nside := Some nside;
                          h_dists := h_dists st1; h_ebvs := h_ebvs st1 |} in
            match open file with
            | Err e => (st2, Err e)
            | Ok f =>
                if negb (nside =? f_nside f)%Z && has pixels then (st2, Err ValueError)
                else
                  let dists := if f_nested f then reorder ring2nest (f_dists f) else f_dists f in
                  let ebvs := if f_nested f then reorder ring2nest (f_ebvs f) else f_ebvs f in
                  ({| h_mapFile := h_mapFile st2; h_map_file := h_map_file st2; h_nside := h_nside st2;
                      h_dists := Some dists; h_ebvs := Some ebvs |},
                   look3d dists ebvs (f_nside f) ra dec pixels interp)
            end
        end
    end.

(** * get_x_at_nearest_y, ebv_3d_hp.py:135-170 *)
(** [np.argmin]: the first smallest; ValueError of nothing *)
Fixpoint argmin_from (best : R) (at_ i : nat) (l : list R) : nat :=
  match l with [] => at_ | x :: t => if rltb x best then argmin_from x i (S i) t else argmin_from best at_ (S i) t end.
Definition argmin (l : list R) : result nat := match l with [] => Err ValueError | x :: t => Ok (argmin_from x 0 1 t) end.
(** one row (lines 167-169) *)
Definition nearest (x y : list R) (goal : R) : result (R * R) :=
  do i <- argmin (map (fun v => Rabs (v - goal)) x); do a <- arr_get x i; do b <- arr_get y i; Ok (a, b).
(** a map (lines 162-165).  Simplified: [squeeze] turns a map of one row into a number. *)
Fixpoint nearest_rows (xs ys : list (list R)) (goal : R) : result (list (R * R)) :=
  match xs, ys with
  | x :: xs', y :: ys' => do p <- nearest x y goal; do r <- nearest_rows xs' ys' goal; Ok (p :: r)
  | [], _ => Ok []
  | _ :: _, [] => Err IndexError
  end.

(** * DustMap3D, dust_map_3d.py *)
(** lines 165-171: distance modulus plus extinction *)
Definition m_minus_mo (r_x : R) (dists ebvs : list R) : list R :=
  map (fun p => (5 * log10 (fst p) - 5) + r_x * snd p) (combine dists ebvs).
(** lines 173-186 for one row; [a_far] is the extinction beyond the map.  [dists] are positive. *)
Definition dist_row (r_x dmag : R) (dists ebvs : list R) (a_far : R) : result R :=
  do p <- nearest (m_minus_mo r_x dists ebvs) dists dmag;
  let far := Rpower 10 (2/10 * (dmag - a_far) + 1) in
  Ok (if rltb (snd p) far then far else snd p).
(** distance_at_dmag of a single slice point: the largest extinction (line 182) *)
Definition dist_at_point (r_x : list (string * R)) (filtername : string) (dmag : R) (dists ebvs : list R) : result R :=
  match dget String.eqb r_x filtername with
  | None => Err KeyError
  | Some k => match ebvs with
              | [] => Err ValueError
              | e :: t => dist_row k dmag dists ebvs (fold_left Rmax (map (Rmult k) t) (k * e))
              end
  end.
(** distance_at_dmag of the whole map: the last extinction of each row (line 180) *)
Fixpoint dist_rows (k dmag : R) (dists ebvs : list (list R)) : result (list R) :=
  match dists, ebvs with
  | d :: ds, e :: es =>
      match e with
      | [] => Err IndexError
      | _ => do x <- dist_row k dmag d e (k * last e 0); do r <- dist_rows k dmag ds es; Ok (x :: r)
      end
  | _, _ => Ok []
  end.
Definition dist_at_map (r_x : list (string * R)) (filtername : string) (dmag : R) (dists ebvs : list (list R)) : result (list R) :=
  match dget String.eqb r_x filtername with None => Err KeyError | Some k => dist_rows k dmag dists ebvs end.
Record dust_map3d := { t_nside : Z; t_file : option string; t_interp : bool; t_filter : string; t_dist_pc : R; t_dmag : R;
                       t_rx : list (string * R) }.
(** DustMap3D.run, lines 106-142; [fmt] is the format .1f *)
Definition dust3d_run isfile data open ring2nest (fmt : R -> string) (dm : dust_map3d) (st : state3d) (s : points)
    : state3d * result points :=
  let '(st', r) :=
    match sp_nside s with
    | Some n => ebv_3d_hp isfile data open ring2nest st n (t_file dm) None None (Some (sp_sid s)) false
    | None => ebv_3d_hp isfile data open ring2nest st (t_nside dm) (t_file dm) (Some (sp_ra s)) (Some (sp_dec s)) None (t_interp dm)
    end in
  (st',
   do v <- r;
   do at_ <- nearest_rows (fst v) (snd v) (t_dist_pc dm);
   do far <- dist_at_map (t_rx dm) (t_filter dm) (t_dmag dm) (fst v) (snd v);
   Ok (put (put (put (put s "ebv3d_dists" (Rows (fst v))) "ebv3d_ebvs" (Rows (snd v)))
                ("ebv3d_ebv_at_" ++ fmt (t_dist_pc dm))%string (Num (map snd at_)))
           ("ebv3d_dist_at_" ++ fmt (t_dmag dm))%string (Num far))).

(** * StellarDensityMap, stellar_density_map.py:40-73 *)
(** the file of the type of star and the filter: rows and bins; [npix2nside] raises for an impossible number of pixels *)
Definition star_file (startype filtername : string) : string :=
  ("starDensity_" ++ filtername ++ "_" ++ (if String.eqb startype "allstars" then "" else startype ++ "_") ++ "nside_64.npz")%string.
Definition star_run (load : string -> result (list (list R) * list R)) (npix2nside : nat -> result Z)
    (startype filtername : string) (s : points) : result points :=
  do f <- load (star_file startype filtername);
  do nside <- npix2nside (length (fst f));
  let matched := match sp_nside s with Some n => (n =? nside)%Z | None => false end in
  do rows <- if matched then Ok (fst f) else take (fst f) (radec2pix nside (sp_ra s) (sp_dec s));
  Ok (put (put s ("starLumFunc_" ++ filtername)%string (Rows rows)) ("starMapBins_" ++ filtername)%string (Num (snd f))).
(** TrilegalDensityMap, trilegal_map.py:41-82.  [dist] is the distance of directions; the tree gives the nearest centre *)
Definition tri_file (filtername : string) (nside_text : string) (ext : bool) : string :=
  ("TRIstarDensity_" ++ filtername ++ "_nside_" ++ nside_text ++ (if ext then "_ext.npz" else ".npz"))%string.
Fixpoint query (dist : R * R -> R * R -> R) (centres : list (R * R)) (targets : list (R * R)) : result (list nat) :=
  match targets with
  | [] => Ok []
  | t :: ts => do i <- argmin (map (dist t) centres); do r <- query dist centres ts; Ok (i :: r)
  end.
Definition tri_run (load : string -> result (list (list R) * list R)) (npix2nside : nat -> result Z) (showz : Z -> string)
    (centres : Z -> list (R * R)) (dist : R * R -> R * R -> R)
    (filtername : string) (nside : Z) (ext : bool) (s : points) : result points :=
  do f <- load (tri_file filtername (showz nside) ext);
  do _ <- npix2nside (length (fst f));
  do ix <- query dist (centres nside) (combine (sp_ra s) (sp_dec s));
  do rows <- take (fst f) ix;
  Ok (put (put s ("starLumFunc_" ++ filtername)%string (Rows rows)) ("starMapBins_" ++ filtername)%string (Num (snd f))).

(** * The galactic plane priority maps, galactic_plane_priority_maps.py *)
Definition gp_prefix : string := "galplane_priority_".
(** gp_priority_map_components_to_keys, line 22 *)
Definition gp_key (filtername science_map : string) : string := (gp_prefix ++ science_map ++ ":" ++ filtername)%string.
(** [text.replace(pre, "")]: [skip] characters of an occurrence are still to be dropped *)
Fixpoint replace_from (pre : string) (skip : nat) (s : string) : string :=
  match s with
  | EmptyString => EmptyString
  | String c t => match skip with
                  | S k => replace_from pre k t
                  | O => if String.prefix pre s then replace_from pre (String.length pre - 1) t
                         else String c (replace_from pre O t)
                  end
  end.
(** [text.split(":")] *)
Fixpoint split (sep : ascii) (s : string) : list string :=
  match s with
  | EmptyString => [EmptyString]
  | String c t => if Ascii.eqb c sep then EmptyString :: split sep t
                  else match split sep t with [] => [String c EmptyString] | h :: r => String c h :: r end
  end.
(** gp_priority_map_keys_to_components, lines 25-27: (filter, science map) *)
Definition gp_components (mapname : string) : result (string * string) :=
  match split ":" (replace_from gp_prefix O mapname) with [s; f] => Ok (f, s) | _ => Err ValueError end.

Definition table := list (string * list R).
(** the attributes of galplane_priority_map; the filterlist is constant *)
Record gp_state := { gp_maps : option (list (string * table)); gp_science : option (list string) }.
Definition gp_fresh : gp_state := {| gp_maps := None; gp_science := None |}.
Definition gp_filters : list string := ["u"; "g"; "r"; "i"; "z"; "y"; "sum"]%string.
(** reading the files, lines 101-113; [set] is list(set(...)).  If a file cannot be read what was read stays. *)
Fixpoint gp_read (open : string -> result table) (set : list string -> list string) (fs : list string)
    (maps : list (string * table)) (science : option (list string)) : gp_state * result unit :=
  match fs with
  | [] => ({| gp_maps := Some maps; gp_science := science |}, Ok tt)
  | f :: rest =>
      match open f with
      | Err e => ({| gp_maps := Some maps; gp_science := science |}, Err e)
      | Ok t => gp_read open set rest (dset String.eqb maps f t)
                  (Some (set (match science with Some l => l | None => [] end ++ map fst t)))
      end
  end.
(** lines 126-149; the look-ups of one key *)
Definition gp_column (maps : list (string * table)) (key : string) : result (list R) :=
  do c <- gp_components key;
  match dget String.eqb maps (fst c) with
  | None => Err KeyError
  | Some t => match dget String.eqb t (snd c) with None => Err KeyError | Some col => Ok col end
  end.
Fixpoint gp_collect (maps : list (string * table)) (f : list R -> result (list R)) (keys : list string) (acc : table) : result table :=
  match keys with
  | [] => Ok acc
  | k :: rest => do col <- gp_column maps k; do v <- f col; gp_collect maps f rest (dset String.eqb acc k v)
  end.
Inductive gp_answer := Keys (l : list string) | Maps (t : table).
(** galplane_priority_map, lines 30-150.  [open dir alt f] is the table of the file of filter [f] *)
Definition galplane (open : string -> bool -> string -> result table) (default_dir : string) (set : list string -> list string)
    (st : gp_state) (nside : Z) (get_keys : bool) (ra dec : option (list R)) (pixels : option (list nat)) (interp : bool)
    (map_path : option string) (alt : bool) : gp_state * result gp_answer :=
  if negb get_keys && (negb (has ra) && negb (has dec) && negb (has pixels)) then (st, Err RuntimeError)
  else if negb (nside =? 64)%Z then (st, Err RuntimeError)
  else
    let dir := match map_path with Some p => p | None => default_dir end in
    let '(st1, r) := if has (gp_maps st) then (st, Ok tt) else gp_read (open dir alt) set gp_filters [] None in
    (st1,
     do _ <- r;
     match gp_science st1, gp_maps st1 with
     | Some science, Some maps =>
         let keys := flat_map (fun f => map (gp_key f) science) gp_filters in
         if get_keys then Ok (Keys keys)
         else
           do t <- gp_collect maps (fun col =>
             match pixels with
             | Some ix => take col ix
             | None => if interp then do d <- given dec; do r <- given ra; Ok (interp_val col r d)
                       else do d <- given dec; do r <- given ra; take col (radec2pix nside r d)
             end) keys [];
           Ok (Maps t)
     | _, _ => Err AttributeError
     end).
(** GalacticPlanePriorityMap.__init__ and run, lines 175-210 *)
Record gp_map := { p_keys : list string; p_interp : bool; p_nside : Z; p_path : option string }.
Definition gp_new open default_dir set (st : gp_state) (interp : bool) (nside : Z) (path : option string) : gp_state * result gp_map :=
  let '(st', r) := galplane open default_dir set st 64 true None None None false None false in
  (st', do a <- r; match a with
                   | Keys l => Ok {| p_keys := l; p_interp := interp; p_nside := nside; p_path := path |}
                   | Maps _ => Err TypeError
                   end).
Fixpoint gp_store (t : table) (keys : list string) (s : points) : result points :=
  match keys with
  | [] => Ok s
  | k :: rest => match dget String.eqb t k with None => Err KeyError | Some v => gp_store t rest (put s k (Num v)) end
  end.
Definition gp_run open default_dir set (m : gp_map) (st : gp_state) (s : points) : gp_state * result points :=
  let '(st', r) :=
    match sp_nside s with
    | Some n => galplane open default_dir set st n false None None (Some (sp_sid s)) false (p_path m) false
    | None => galplane open default_dir set st (p_nside m) false (Some (sp_ra s)) (Some (sp_dec s)) None (p_interp m) (p_path m) false
    end in
  (st', do a <- r; match a with Maps t => gp_store t (p_keys m) s | Keys _ => Err TypeError end).
End Sphere.

(** * Which maps are run *)
(** a map: keynames and run.  Simplified: the state of the functions above is not part of it. *)
Record amap := { a_keys : list string; a_run : points -> result points }.
(** BaseMap.__eq__, base_map.py:48: lists of strings *)
Fixpoint keys_eqb (a b : list string) : bool :=
  match a, b with
  | [], [] => true
  | x :: a', y :: b' => String.eqb x y && keys_eqb a' b'
  | _, _ => false
  end.
(** the maps of a group of bundles without repetition, metric_bundle_group.py:427-436 *)
Definition uniq_maps (all : list amap) : list amap :=
  fold_left (fun u m => if existsb (fun x => keys_eqb (a_keys x) (a_keys m)) u then u else u ++ [m]) all [].
(** BaseSlicer._run_maps, base_slicer.py:88-92 *)
Definition run_maps (maps : list amap) (s : points) : result points :=
  fold_left (fun r m => do p <- r; a_run m p) maps (Ok s).
Definition group_points (all : list amap) (s : points) : result points := run_maps (uniq_maps all) s.
