(** Model of the comparison of runs: rubin_sim/maf/run_comparison/{summary_plots,radar_plot,archive,gather_summaries}.py.
    A cell is [None] when it is not a finite number (missing, NaN or the result of a division by zero); the cells that are read are
    finite or missing.  Rounding is not modelled. *)
From Coq Require Import String Ascii Reals ZArith List Bool.
From Verif Require Import Base Depth_Model Template_Model.
Import ListNotations.
Open Scope R_scope.

Definition cell := option R.
Definition c_sub (x y : cell) : cell := match x, y with Some a, Some b => Some (a - b) | _, _ => None end.
Definition c_add (x y : cell) : cell := match x, y with Some a, Some b => Some (a + b) | _, _ => None end.
Definition c_div (x y : cell) : cell := match x, y with Some a, Some b => if Req_EM_T b 0 then None else Some (a / b) | _, _ => None end.
Definition c_neg (x : cell) : cell := match x with Some a => Some (- a) | None => None end.

Definition mem (x : string) (l : list string) : bool := existsb (String.eqb x) l.

(** a pandas DataFrame with labelled axes *)
Record frame := { f_iname : option string; f_cname : option string; f_index : list string; f_cols : list string; f_cells : list (list cell) }.
Definition transpose (ncols : nat) (cells : list (list cell)) : list (list cell) := map (fun j => map (fun row => nth j row None) cells) (seq 0 ncols).
(** [summary.T] *)
Definition flip_frame (f : frame) : frame :=
  {| f_iname := f_cname f; f_cname := f_iname f; f_index := f_cols f; f_cols := f_index f; f_cells := transpose (length (f_cols f)) (f_cells f) |}.

(** * normalize_metric_summaries, summary_plots.py:30-161 *)
(** the constants of lines 22-23 *)
Definition run_col_names : list string := ["run"; "OpsimRun"; "run_name"]%string.
Definition metric_col_names : list string := ["metric"]%string.
Definition named (n : option string) (l : list string) : bool := match n with Some s => mem s l | None => false end.
(** lines 61-66 *)
Definition oriented (f : frame) : frame := if named (f_cname f) run_col_names || named (f_iname f) metric_col_names then flip_frame f else f.
(** line 86: [groupby(...).first()], the first value that is not missing *)
Fixpoint first_some (l : list cell) : cell := match l with [] => None | Some x :: _ => Some x | None :: t => first_some t end.
Definition merged_row (cols : list string) (row : list cell) (m : string) : cell :=
  first_some (map snd (filter (fun p => String.eqb (fst p) m) (combine cols row))).
Definition merged (f : frame) (run m : string) : cell :=
  first_some (map (fun rr => merged_row (f_cols f) (snd rr) m) (filter (fun rr => String.eqb (fst rr) run) (combine (f_index f) (f_cells f)))).
(** the baseline of lines 88-100; [median] skips missing values *)
Inductive baseline := One (run : string) | Many (runs : list string).
Definition numbers (l : list cell) : list R := flat_map (fun c => match c with Some x => [x] | None => [] end) l.
Definition base_value (f : frame) (b : baseline) (m : string) : cell :=
  match b with
  | One r => merged f r m
  | Many rs => match numbers (map (fun r => merged f r m) rs) with [] => None | l => Some (percentile l 50) end
  end.
(** lines 118-152 for a value [x] and the baseline's [b]; without subsets, lines 102-106, the flags are both false *)
Definition prepared (invert mag : bool) (b x : cell) : cell :=
  if invert && mag then c_sub (Some 1) (c_sub x b) else if mag then c_add (Some 1) (c_sub x b) else if invert then c_div (Some 1) x else x.
Definition norm_cell (invert mag : bool) (b x : cell) : cell :=
  let y := prepared invert mag b x in let yb := prepared invert mag b b in c_add (Some 1) (c_div (c_sub y yb) yb).
(** the flags of a metric, lines 108-116: its first row *)
Definition flags_of (subsets : list (string * (bool * bool))) (m : string) : bool * bool :=
  match dget String.eqb subsets m with Some b => b | None => (false, false) end.
Definition normalize (b : baseline) (summary : frame) (subsets : option (list (string * (bool * bool)))) : result frame :=
  let f := oriented summary in
  let used := match subsets with None => f_cols f | Some s => filter (fun m => mem m (map fst s)) (f_cols f) end in
  if (match f_cname f with None => false | Some c => negb (String.eqb c "metric") end)
     || (match f_iname f with None => false | Some c => negb (mem c run_col_names) end)
  then Err KeyError   (* lines 79-86: no level of that name *)
  else if forallb (fun r => mem r (f_index f)) (match b with One r => [r] | Many rs => rs end)
  then Ok {| f_iname := Some "run"%string; f_cname := Some "metric"%string; f_index := f_index f; f_cols := used;
             f_cells := map (fun r => map (fun m => let fl := match subsets with None => (false, false) | Some s => flags_of s m end in
                                                    norm_cell (fst fl) (snd fl) (base_value f b m) (merged f r m)) used) (f_index f) |}
  else Err KeyError.

(** * normalize_for_radar, radar_plot.py:17-67 (a column is inverted at most once).  The columns by name, each a list of cells along the index *)
Definition columns := list (string * list cell).
Fixpoint change_cols (g : cell -> cell) (names : list string) (cols : columns) : result columns :=
  match names with
  | [] => Ok cols
  | n :: t => match dget String.eqb cols n with None => Err KeyError | Some c => change_cols g t (dset String.eqb cols n (map g c)) end
  end.
Fixpoint last_pos (x : string) (l : list string) (k : nat) : option nat :=
  match l with [] => None | y :: t => match last_pos x t (S k) with Some p => Some p | None => if String.eqb y x then Some k else None end end.
Inductive mags := These (l : list string) | All_mags.
(** lines 59-66; the column "run_name" is left alone *)
Definition radar_col (mag_cols : mags) (k : nat) (c : string * list cell) : string * list cell :=
  if String.eqb (fst c) "run_name" then c
  else
    let b := nth k (snd c) None in
    (fst c, if match mag_cols with All_mags => true | These l => mem (fst c) l end
            then map (fun x => c_add (Some 1) (c_sub x b)) (snd c)
            else map (fun x => c_add (Some 1) (c_div (c_sub x b) b)) (snd c)).
Definition normalize_for_radar (index : list string) (cols : columns) (norm_run : option string) (invert reverse : list string) (mag_cols : mags) : result columns :=
  do c1 <- change_cols c_neg reverse cols;
  do c2 <- change_cols (c_div (Some 1)) invert c1;
  match norm_run with
  | None => Ok c2
  | Some r => match last_pos r index 0 with
              | None => Err ValueError   (* np.max of an empty array *)
              | Some k => Ok (map (radar_col mag_cols k) c2)
              end
  end.

(** * get_metric_summaries, archive.py:165-285.  The families as rows (family, run), the subsets as rows (subset, metric). *)
(** lines 254-257 and 259-262 *)
Fixpoint members (table : list (string * string)) (names : list string) : result (list string) :=
  match names with
  | [] => Ok []
  | n :: t => match filter (fun p => String.eqb (fst p) n) table with
              | [] => Err KeyError
              | l => do r <- members table t; Ok (map snd l ++ r)
              end
  end.
(** [metrics.remove(m)] *)
Fixpoint remove_first (x : string) (l : list string) : list string :=
  match l with [] => [] | y :: t => if String.eqb y x then t else y :: remove_first x t end.
(** lines 273-277 *)
Definition skip_missing (cols metrics : list string) : list string :=
  fold_left (fun ms m => if mem m cols then ms else remove_first m ms) metrics metrics.
(** [.loc] with a list of labels: the positions of each label in turn *)
Definition positions (x : string) (l : list string) : list nat := map fst (filter (fun p => String.eqb (snd p) x) (combine (seq 0 (length l)) l)).
Fixpoint loc_list (labels axis : list string) : result (list nat) :=
  match labels with
  | [] => Ok []
  | x :: t => match positions x axis with [] => Err KeyError | l => do r <- loc_list t axis; Ok (l ++ r) end
  end.
Definition get_metric_summaries (all : frame) (families : list (string * string)) (subsets : list (string * string))
    (run_families metric_subsets runs metrics : list string) (run_order metric_order : string) : result frame :=
  do fam <- members families run_families;
  do sub <- members subsets metric_subsets;
  let runs := runs ++ fam in
  let metrics := metrics ++ sub in
  do rows <- match runs with
             | [] => Ok (seq 0 (length (f_index all)))
             | _ => loc_list (if String.eqb run_order "summary" then filter (fun r => mem r runs) (f_index all) else runs) (f_index all)
             end;
  do cols <- match metrics with
             | [] => Ok (seq 0 (length (f_cols all)))
             | _ => let ms := skip_missing (f_cols all) metrics in
                    loc_list (if String.eqb metric_order "summary" then filter (fun m => mem m ms) (f_cols all) else ms) (f_cols all)
             end;
  Ok {| f_iname := Some "run"%string; f_cname := Some "metric"%string;
        f_index := map (fun i => nth i (f_index all) EmptyString) rows; f_cols := map (fun j => nth j (f_cols all) EmptyString) cols;
        f_cells := map (fun i => map (fun j => nth j (nth i (f_cells all) []) None) cols) rows |}.

(** * get_family_runs and get_runs, archive.py:288-394.  A family of the file: name, version and the four lists. *)
Record family := { a_name : string; a_version : string; a_runs : list string; a_briefs : list string; a_paths : list string; a_urls : list (option string) }.
(** a row of the exploded table; [None] is missing *)
Record frow := { w_family : string; w_version : string; w_run : option string; w_brief : option string; w_path : option string; w_url : option string }.
(** [explode], line 339: lists of different length are refused; an empty list gives a row of missing values *)
Definition explode1 (a : family) : result (list frow) :=
  let n := length (a_runs a) in
  if ((length (a_briefs a) =? n) && (length (a_paths a) =? n) && (length (a_urls a) =? n))%nat
  then Ok (match a_runs a with
           | [] => [{| w_family := a_name a; w_version := a_version a; w_run := None; w_brief := None; w_path := None; w_url := None |}]
           | _ => map (fun q => {| w_family := a_name a; w_version := a_version a; w_run := Some (fst (fst (fst q))); w_brief := Some (snd (fst (fst q)));
                                   w_path := Some (snd (fst q)); w_url := snd q |})
                      (combine (combine (combine (a_runs a) (a_briefs a)) (a_paths a)) (a_urls a))
           end)
  else Err ValueError.
Fixpoint family_runs (l : list family) : result (list frow) :=
  match l with [] => Ok [] | a :: t => do r <- explode1 a; do rest <- family_runs t; Ok (r ++ rest) end.
(** get_runs, lines 383-392: grouped by run, description, path and url; rows in which one of these is missing are dropped.
    The order of the rows (sorted by pandas) is not modelled. *)
Definition rkey := (string * string * string * string)%type.
Definition rkey_eqb (a b : rkey) : bool :=
  let '(a1, a2, a3, a4) := a in let '(b1, b2, b3, b4) := b in String.eqb a1 b1 && String.eqb a2 b2 && String.eqb a3 b3 && String.eqb a4 b4.
Definition rkey_dec (a b : rkey) : {a = b} + {a <> b}.
Proof. repeat decide equality. Defined.
Definition key_of (w : frow) : option rkey :=
  match w_run w, w_brief w, w_path w, w_url w with Some r, Some b, Some p, Some u => Some (r, b, p, u) | _, _, _, _ => None end.
Definition keys_of (rows : list frow) : list rkey := flat_map (fun w => match key_of w with Some k => [k] | None => [] end) rows.
Record rrow := { u_run : string; u_families : list string; u_versions : list string; u_brief : string; u_path : string; u_url : string }.
Definition get_runs (rows : list frow) : list rrow :=
  map (fun k : rkey => let '(r, b, p, u) := k in
         let grp := filter (fun w => match key_of w with Some k' => rkey_eqb k' k | None => false end) rows in
         {| u_run := r; u_families := map w_family grp; u_versions := map w_version grp; u_brief := b; u_path := p; u_url := u |})
      (nodup rkey_dec (keys_of rows)).

(** * find_family_lines, summary_plots.py:700-705 *)
Fixpoint cumsum (acc : nat) (l : list nat) : list nat := match l with [] => [] | n :: t => (acc + n)%nat :: cumsum (acc + n)%nat t end.
(** [len(families.loc[f]["run"])] for a table of family runs: with a single row this is the length of a name *)
Definition family_len (rows : list (string * string)) (f : string) : result nat :=
  match filter (fun p => String.eqb (fst p) f) rows with
  | [] => Err KeyError
  | [p] => Ok (String.length (snd p))
  | l => Ok (length l)
  end.
Fixpoint map_ok {A B} (g : A -> result B) (l : list A) : result (list B) :=
  match l with [] => Ok [] | x :: t => do y <- g x; do r <- map_ok g t; Ok (y :: r) end.
Definition find_family_lines (rows : list (string * string)) (names : list string) : result (list nat) :=
  do l <- map_ok (family_len rows) names; Ok (cumsum 0 l).
(** the same with the descriptions of get_family_descriptions, in which "run" is a list *)
Definition find_family_lines_desc (fams : list (string * list string)) (names : list string) : result (list nat) :=
  do l <- map_ok (fun f => match dget String.eqb fams f with Some rs => Ok (length rs) | None => Err KeyError end) names; Ok (cumsum 0 l).

(** * download_runs, archive.py:397-454.  The disk holds contents by path; [fetch] is urlretrieve; a run is (name, path, url). *)
Definition disk := list (string * string).
Definition join (dir path : string) : string := if String.prefix "/" path then path else (dir ++ "/" ++ path)%string.
Fixpoint download_loop (fetch : string -> string) (dest : string) (clobber : bool) (runs : list (string * string * string)) (d : disk) (names : list (string * string))
  : disk * list (string * string) :=
  match runs with
  | [] => (d, names)
  | (name, path, url) :: t =>
      let p := join dest path in
      let names := dset String.eqb names name p in
      if clobber || match dget String.eqb d p with None => true | Some _ => false end
      then download_loop fetch dest clobber t (dset String.eqb d p (fetch url)) names
      else download_loop fetch dest clobber t d names
  end.
(** lines 438-439: the directory must exist *)
Definition download_runs (fetch : string -> string) (dirs : list string) (dest : string) (clobber : bool) (runs : list (string * string * string)) (d : disk)
  : result (disk * list (string * string)) :=
  if mem dest dirs then Ok (download_loop fetch dest clobber runs d []) else Err OSError.

(** * combine_result_dbs, gather_summaries.py:14-65 *)
Definition is_space (a : ascii) : bool := existsb (Ascii.eqb a) [" "; "009"; "010"; "011"; "012"; "013"]%char.
Fixpoint lstrip (s : string) : string := match s with String a t => if is_space a then lstrip t else s | EmptyString => EmptyString end.
Fixpoint rstrip (s : string) : string :=
  match s with
  | EmptyString => EmptyString
  | String a t => match rstrip t with EmptyString => if is_space a then EmptyString else String a EmptyString | r => String a r end
  end.
Definition strip (s : string) : string := rstrip (lstrip s).
(** [s.replace("  ", " ")] *)
Fixpoint single_spaces (s : string) : string :=
  match s with
  | EmptyString => EmptyString
  | String a t => match t with
                  | String b t' => if Ascii.eqb a " " && Ascii.eqb b " " then String " " (single_spaces t') else String a (single_spaces t)
                  | EmptyString => s
                  end
  end.
Record stat := { s_value : cell; s_metric : string; s_info : string; s_slicer : string; s_summary : string; s_run : string }.
(** make_summary_name, lines 41-52 *)
Definition stat_name (s : stat) : string :=
  single_spaces (strip (s_summary s) ++ " " ++ strip (s_metric s) ++ " " ++ strip (s_info s) ++ " " ++ strip (s_slicer s))%string.
(** a database is [None] when the file is not there: a warning, after which the (new, empty) database has no table; [created] are
    the files made.  Databases hold at least one statistic. *)
Fixpoint read_dbs (dbs : list (string * option (list stat))) (created : list string) : result (list stat) * list string :=
  match dbs with
  | [] => (Ok [], created)
  | (dir, None) :: _ => (Err OperationalError, dir :: created)
  | (_, Some l) :: t => let r := read_dbs t created in (do rest <- fst r; Ok (l ++ rest), snd r)
  end.
(** lines 57-65: for each run and name the last value that is not missing; the order of rows and columns (sorted) is not modelled *)
Definition last_some (l : list cell) : cell := first_some (rev l).
Definition combined (stats : list stat) (run name : string) : cell :=
  last_some (map s_value (filter (fun s => String.eqb (s_run s) run && String.eqb (stat_name s) name) stats)).
Definition combine_result_dbs (dbs : list (string * option (list stat))) : result frame * list string :=
  let r := read_dbs dbs [] in
  (do stats <- fst r;
   let runs := nodup string_dec (map s_run stats) in
   let names := nodup string_dec (map stat_name stats) in
   Ok {| f_iname := Some "run_name"%string; f_cname := Some "metric"%string; f_index := runs; f_cols := names;
         f_cells := map (fun r => map (fun n => combined stats r n) names) runs |}, snd r).
