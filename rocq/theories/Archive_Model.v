(** Model of the visit sequence archive: rubin_sim/sim_archive/vseqmetadata.py, vseqarchive.py and
    sql/make_vseqmeta.sql.  Tables are lists of rows; uuids are numbers; the database itself is taken to do what
    SQL says.  Points in time are seconds (Z), days are day numbers (Z). *)
From Verif Require Import Base.
From Coq Require Import Ascii.

Definition uuid := nat.

(** * Tags *)
(** Table tags, make_vseqmeta.sql:47-50: no key, so rows may repeat. *)
Definition tag_row := (uuid * string)%type.
Definition tag_eqb (a b : tag_row) : bool := Nat.eqb (fst a) (fst b) && String.eqb (snd a) (snd b).
(** is_tagged, vseqmetadata.py:946-967 *)
Definition is_tagged (t : list tag_row) (u : uuid) (g : string) : bool :=
  (1 <=? length (filter (tag_eqb (u, g)) t))%nat.
(** one round of the loop of tag, vseqmetadata.py:983-986 *)
Definition tag1 (u : uuid) (t : list tag_row) (g : string) : list tag_row :=
  if is_tagged t u g then t else t ++ [(u, g)].
(** tag, vseqmetadata.py:969-986 *)
Definition tag (t : list tag_row) (u : uuid) (gs : list string) : list tag_row := fold_left (tag1 u) gs t.
(** untag, vseqmetadata.py:988-1012 *)
Definition untag (t : list tag_row) (u : uuid) (g : string) : list tag_row * result unit :=
  if negb (is_tagged t u g) then (t, Err ValueError)
  else (filter (fun r => negb (tag_eqb (u, g) r)) t, Ok tt).
Inductive tag_op := Tag (u : uuid) (gs : list string) | Untag (u : uuid) (g : string).
Definition tag_step (t : list tag_row) (o : tag_op) : list tag_row :=
  match o with Tag u gs => tag t u gs | Untag u g => fst (untag t u g) end.
Definition tag_run (h : list tag_op) : list tag_row := fold_left tag_step h [].

(** Several clients each executing tag(u, g) with one tag: the test (a SELECT in its own transaction) and the
    INSERT (another transaction), vseqmetadata.py:984-986, can be interleaved.  A client is before its test, has
    seen a result, or is finished; the schedule is the list of the clients that make the next step. *)
Inductive tagger := TStart | TSeen (b : bool) | TDone.
Definition client_step (u : uuid) (g : string) (s : list tag_row * list tagger) (i : nat) : list tag_row * list tagger :=
  let (t, cs) := s in
  match nth_error cs i with
  | Some TStart => (t, set_nth cs i (TSeen (is_tagged t u g)))
  | Some (TSeen true) => (t, set_nth cs i TDone)
  | Some (TSeen false) => (t ++ [(u, g)], set_nth cs i TDone)
  | _ => (t, cs)
  end.
Definition clients_run (u : uuid) (g : string) (n : nat) (t : list tag_row) (sched : list nat) : list tag_row * list tagger :=
  fold_left (client_step u g) sched (t, repeat TStart n).
(** the tags column of the view simulations_extra, make_vseqmeta.sql:90-93: distinct tags (sorted by the
    database; the order is not modelled) *)
Definition view_tags (t : list tag_row) (u : uuid) : list string :=
  nodup string_dec (map snd (filter (fun r => Nat.eqb u (fst r)) t)).

(** * Connections *)
(** psycopg2 SimpleConnectionPool(1, 5), vseqmetadata.py:220-222: the number of connections handed out; and
    whether the sqlalchemy engine made at 223-225 keeps an idle one in its own pool *)
Record pool := mkPool { p_used : nat; p_sa : bool }.
Definition pool_init : pool := mkPool 0 false.
Definition pool_max : nat := 5.
(** SimpleConnectionPool.getconn / putconn (psycopg2): PoolError when all are handed out *)
Definition getconn (p : pool) : result pool :=
  if (p_used p <? pool_max)%nat then Ok (mkPool (S (p_used p)) (p_sa p)) else Err PoolError.
Definition putconn (p : pool) : pool := mkPool (pred (p_used p)) (p_sa p).
(** The database calls that the methods are made of.  [fails]: the database raises during the call. *)
Inductive pcall :=
| CQuery (fails : bool)                  (* query, 229-294, and the blocks 720-733, 830-843, 929-942 *)
| CRead (stale fails : bool)             (* pd_read_sql, 326-383; [stale]: the server has closed the idle connection *)
| CInsertStats (fails : bool).           (* insert_nightly_stats, 1258-1304 *)
Definition db_outcome (fails : bool) : result unit := if fails then Err OperationalError else Ok tt.
Definition pcall_step (p : pool) (c : pcall) : pool * result unit :=
  match c with
  | CQuery fails =>
      match getconn p with
      | Err e => (p, Err e)
      | Ok p' => (putconn p', db_outcome fails)          (* finally: putconn, 290-292 *)
      end
  | CRead stale fails =>
      match getconn p with                                (* 372-378 *)
      | Err e => (p, Err e)
      | Ok p' =>
          let p := putconn p' in
          if p_sa p && negb stale then (p, db_outcome fails)   (* 380-381: the idle connection is used again *)
          else match getconn p with                        (* creator=self.pg_pool.getconn, 224 *)
               | Err e => (mkPool (p_used p) false, Err e)
               | Ok p'' => (mkPool (p_used p'') true, db_outcome fails)
               end
      end
  | CInsertStats fails =>                                  (* a new engine with its own pool, 1299-1304 *)
      match getconn p with
      | Err e => (p, Err e)
      | Ok p' => (p', db_outcome fails)                    (* never given back to pg_pool *)
      end
  end.
Fixpoint pool_run (p : pool) (h : list pcall) : pool * list (result unit) :=
  match h with
  | [] => (p, [])
  | c :: t => let (p', r) := pcall_step p c in let (p'', rs) := pool_run p' t in (p'', r :: rs)
  end.

(** * Files *)
(** Location <archive_base>/<telescope>/<date>/<uuid>/<name>, vseqarchive.py:90-124 and 140; components are
    taken not to contain "/" *)
Record path := mkPath { p_base : string; p_tel : string; p_date : string; p_uuid : uuid; p_name : string }.
Definition path_eqb (a b : path) : bool :=
  String.eqb (p_base a) (p_base b) && String.eqb (p_tel a) (p_tel b) && String.eqb (p_date a) (p_date b)
  && Nat.eqb (p_uuid a) (p_uuid b) && String.eqb (p_name a) (p_name b).
Definition fkey_eqb (a b : uuid * string) : bool := Nat.eqb (fst a) (fst b) && String.eqb (snd a) (snd b).
(** stored files; table files (key visitseq_uuid, file_type; make_vseqmeta.sql:63-69); visitseq_url column *)
Record fstate := mkF {
  f_store : list (path * string);
  f_files : list ((uuid * string) * (string * path));
  f_urls  : list (uuid * path) }.
Definition fstate_init : fstate := mkF [] [] [].

Section Files.
(** hashlib.sha256 and the conversion of an opsim sqlite file to hdf5 (util.opsimdb_to_hdf5) *)
Variable sha256 : string -> string.
Variable to_hdf5 : string -> string.

(** register_file, vseqmetadata.py:1096-1186 *)
Definition register_file (s : fstate) (u : uuid) (ft : string) (sha : string) (loc : path) (update : bool)
    : fstate * result unit :=
  if String.eqb ft "visits" then (s, Err ValueError)
  else if dmem fkey_eqb (f_files s) (u, ft) && negb update then (s, Err ValueError)
  else (mkF (f_store s) (dset fkey_eqb (f_files s) (u, ft) (sha, loc)) (f_urls s), Ok tt).

(** one call of add_file: uuid, file name and content of the origin, whether its suffix is one of
    SQLITE_EXTINSIONS (vseqarchive.py:44, 204), file type, archive base, update, and the telescope and creation day
    that get_visitseq_metadata returns ([None]: no such visit sequence) *)
Record add_op := mkAdd {
  a_uuid : uuid; a_name : string; a_content : string; a_sqlite : bool; a_type : string;
  a_base : string; a_update : bool; a_meta : option (string * string) }.

(** The name and content that are written: sqlite files given as visits are converted to visits.h5 first
    (vseqarchive.py:204-209; the recursive call then takes the ordinary path). *)
Definition add_name (o : add_op) : string :=
  if String.eqb (a_type o) "visits" && a_sqlite o then "visits.h5"%string else a_name o.
Definition add_content (o : add_op) : string :=
  if String.eqb (a_type o) "visits" && a_sqlite o then to_hdf5 (a_content o) else a_content o.
Definition add_path (o : add_op) (m : string * string) : path :=
  mkPath (a_base o) (fst m) (snd m) (a_uuid o) (add_name o).
(** _write_file_to_archive, vseqarchive.py:146-157, writes first *)
Definition write_file (s : fstate) (loc : path) (c : string) : fstate :=
  mkF (dset path_eqb (f_store s) loc c) (f_files s) (f_urls s).
(** add_file, vseqarchive.py:158-220 *)
Definition add_file (s : fstate) (o : add_op) : fstate * result path :=
  match a_meta o with
  | None => (s, Err IndexError)                            (* .iloc[0, :] of no rows, vseqmetadata.py:528 *)
  | Some m =>
      let loc := add_path o m in
      let s1 := write_file s loc (add_content o) in
      if String.eqb (a_type o) "visits" then
        (mkF (f_store s1) (f_files s1) (dset Nat.eqb (f_urls s1) (a_uuid o) loc), Ok loc)
      else match register_file s1 (a_uuid o) (a_type o) (sha256 (add_content o)) loc (a_update o) with
           | (s2, Ok _) => (s2, Ok loc)
           | (s2, Err e) => (s2, Err e)
           end
  end.
(** what is stored and registered when the process stops during add_file: before the write, after it, at the end *)
Definition add_file_states (s : fstate) (o : add_op) : list fstate :=
  match a_meta o with
  | None => [s]
  | Some m => [s; write_file s (add_path o m) (add_content o); fst (add_file s o)]
  end.
Definition files_run (h : list add_op) : fstate := fold_left (fun s o => fst (add_file s o)) h fstate_init.
End Files.

(** get_file_sha256 and get_file_url, vseqmetadata.py:1188-1256 (file types other than "visits") *)
Definition get_file_sha256 (s : fstate) (u : uuid) (ft : string) : result string :=
  match dget fkey_eqb (f_files s) (u, ft) with Some (h, _) => Ok h | None => Err ValueError end.
Definition get_file_url (s : fstate) (u : uuid) (ft : string) : result path :=
  match dget fkey_eqb (f_files s) (u, ft) with Some (_, p) => Ok p | None => Err ValueError end.
(** reading a URL of the store *)
Definition read_url (s : fstate) (p : path) : option string := dget path_eqb (f_store s) p.

(** * Simulation metadata *)
(** A row of the simulations table: the columns written by record_visitseq_metadata (385-492) and the six
    provenance columns (make_vseqmeta.sql:17-22), as column/value pairs *)
Record sim_row := mkSim { s_uuid : uuid; s_basic : list (string * string); s_prov : list (string * string) }.
(** record_simulation_metadata, vseqmetadata.py:586-735: the committed states it passes through and its outcome.
    [prov] are the optional columns that are given; [update_ok]: the UPDATE is accepted by the database. *)
Definition record_sim (db : list sim_row) (fresh : uuid) (basic prov : list (string * string)) (update_ok : bool)
    : list (list sim_row) * result uuid :=
  let db1 := db ++ [mkSim fresh basic []] in              (* INSERT, committed: 653-658 and 491 *)
  match prov with
  | [] => ([db; db1], Ok fresh)
  | _ => if update_ok then ([db; db1; db ++ [mkSim fresh basic prov]], Ok fresh)   (* UPDATE, COMMIT: 712-733 *)
         else ([db; db1], Err OperationalError)
  end.

(** * Conda environments *)
(** table conda_env, make_vseqmeta.sql:120-123.  Python evaluates the chained comparison
    [h is None != j is None] of vseqmetadata.py:1368 as
    [(h is None) and (None != j) and (j is None)]. *)
Definition is_none {A} (o : option A) : bool := match o with None => true | Some _ => false end.
Definition conda_guard (h j : option string) : bool := is_none h && negb (is_none j) && is_none j.
(** record_conda_env, vseqmetadata.py:1353-1389; [env] is what compute_conda_env returns *)
Definition record_conda_env (env : string * string) (saved : list (string * string)) (h j : option string)
    : list (string * string) * result string :=
  if conda_guard h j then (saved, Err ValueError)
  else
    let (h', j') := if is_none h then (Some (fst env), Some (snd env)) else (h, j) in
    match h', j' with
    | Some h1, Some j1 =>
        if dmem String.eqb saved h1 then (saved, Ok h1) else (saved ++ [(h1, j1)], Ok h1)
    | _, _ => (saved, Err AssertionError)
    end.
Definition conda_run (h : list ((string * string) * (option string * option string))) : list (string * string) :=
  fold_left (fun s c => fst (record_conda_env (fst c) s (fst (snd c)) (snd (snd c)))) h [].

(** * yaml export and import *)
(** the part of a row of simulations_extra that sim_metadata_yaml uses *)
Record sim_md := mkMd {
  m_uuid : string; m_label : string; m_tel : string; m_tags : list string; m_sched : option string;
  m_created : Z; m_first : option Z; m_last : option Z; m_files : list (string * string) }.
(** yaml documents; yaml.dump followed by yaml.safe_load is taken to be the identity on them *)
Inductive yval := YStr (s : string) | YTime (t : Z) | YList (l : list yval) | YDict (d : list (string * yval)).
Definition yget (d : list (string * yval)) (k : string) : option yval := dget String.eqb d k.
(** sim_metadata_yaml, vseqmetadata.py:1690-1732.  [basename] is ResourcePath(url).basename(). *)
Definition opt_entry {A} (k : string) (o : option A) (f : A -> yval) : list (string * yval) :=
  match o with Some a => [(k, f a)] | None => [] end.
Definition export_yaml (basename : string -> string) (m : sim_md) : list (string * yval) :=
  [("uuid", YStr (m_uuid m)); ("label", YStr (m_label m));
   ("telescope", YStr (m_tel m)); ("tags", YList (map YStr (m_tags m)))]%string
  ++ opt_entry "scheduler_version" (m_sched m) YStr
  ++ [("creation_time", YTime (m_created m))]%string
  ++ (if is_none (m_first m) && is_none (m_last m) then []
      else [("simulation_dates"%string,
             YDict (opt_entry "first" (m_first m) YTime ++ opt_entry "last" (m_last m) YTime))])
  ++ [("files"%string,
       YDict (map (fun f => (fst f, YDict [("url", YStr (snd f)); ("name", YStr (basename (snd f)))]%string)) (m_files m)))].

Section Import.
(** the time in a label that ends in "run at <ISO time>", vseqmetadata.py:1608-1613 *)
Variable label_time : string -> option Z.
(** whether a url can be read, and opsimdb_to_hdf5 of it succeeds; the uuid and the clock *)
Variable readable : string -> bool.
Variable fresh : string.
Variable now : Z.
Definition ystr (o : option yval) : option string := match o with Some (YStr s) => Some s | _ => None end.
Definition ytime (o : option yval) : option Z := match o with Some (YTime t) => Some t | _ => None end.
(** lines 1619-1623: KeyError is ignored *)
Definition side_date (y : list (string * yval)) (side : string) : option Z :=
  match yget y "simulated_dates" with Some (YDict d) => ytime (yget d side) | _ => None end.
(** the loop 1641-1645: register_file raises for "visits" and for a type that is registered already *)
Fixpoint import_files (acc : list (string * string)) (fs : list (string * yval)) : result (list (string * string)) :=
  match fs with
  | [] => Ok acc
  | (ft, v) :: t =>
      match v with
      | YDict d =>
          match ystr (yget d "url") with
          | None => Err KeyError
          | Some url =>
              if negb (readable url) then Err OperationalError
              else if String.eqb ft "visits" || dmem String.eqb acc ft then Err ValueError
              else import_files (acc ++ [(ft, url)]) t
          end
      | _ => Err TypeError
      end
  end.
Definition tag_name1 (acc : list string) (g : string) : list string :=
  if existsb (String.eqb g) acc then acc else acc ++ [g].
(** import_sim_from_yaml, vseqmetadata.py:1576-1650, with archive_base=None: the metadata of the new simulation.
    The telescope defaults to "simonyi" (record_simulation_metadata, line 590). *)
Definition import_yaml (y : list (string * yval)) : result sim_md :=
  match yget y "label" with
  | Some (YStr label) =>
      match yget y "files" with
      | Some (YDict fs) =>
          match yget fs "observations" with
          | Some (YDict od) =>
              match ystr (yget od "url") with
              | None => Err KeyError
              | Some url =>
                  if negb (readable url) then Err OperationalError
                  else
                    do files <- import_files [] fs ;
                    Ok (mkMd fresh label
                          (match ystr (yget y "telescope") with Some t => t | None => "simonyi"%string end)
                          (match yget y "tags" with
                           | Some (YList l) =>
                               fold_left tag_name1 (flat_map (fun v => match v with YStr s => [s] | _ => [] end) l) []
                           | _ => [] end)
                          (ystr (yget y "scheduler_version"))
                          (match label_time label with Some t => t | None => now end)
                          (side_date y "first") (side_date y "last") files)
              end
          | _ => Err ValueError
          end
      | _ => Err ValueError
      end
  | _ => Err ValueError
  end.
End Import.

(** * Daily ids *)
(** DATE(creation_time - INTERVAL '12 hours') with a session in UTC, make_vseqmeta.sql:75 *)
Definition sim_day (t : Z) : Z := ((t - 43200) / 86400)%Z.
(** ROW_NUMBER() OVER (PARTITION BY day ORDER BY creation_time), make_vseqmeta.sql:76: [order] is the order that
    the database puts the simulations of a day in (it has to sort by time; what it does with equal times is open) *)
Definition on_day (d : Z) (sims : list (uuid * Z)) : list (uuid * Z) :=
  filter (fun s => Z.eqb (sim_day (snd s)) d) sims.
Definition daily_ids (order : list (uuid * Z) -> list (uuid * Z)) (sims : list (uuid * Z)) (d : Z) : list (nat * uuid) :=
  let l := order (on_day d sims) in combine (seq 1 (length l)) (map fst l).
(** get_sim_uuid, vseqmetadata.py:1749-1788 *)
Definition get_sim_uuid (order : list (uuid * Z) -> list (uuid * Z)) (sims : list (uuid * Z)) (d : Z) (k : nat) : result uuid :=
  match filter (fun x => Nat.eqb (fst x) k) (daily_ids order sims d) with
  | [] => Err ValueError
  | [(_, u)] => Ok u
  | _ => Err AssertionError
  end.

(** * sims_on_nights *)
(** printf-style formatting of a query by the database driver (psycopg2): "%s" takes the next parameter, "%%" is
    a percent sign, anything else after "%" is an error *)
Fixpoint py_format (t : string) (ps : list string) : result string :=
  match t with
  | EmptyString => match ps with [] => Ok EmptyString | _ => Err TypeError end
  | String c r =>
      if Ascii.eqb c "%" then
        match r with
        | String c' r' =>
            if Ascii.eqb c' "s" then
              match ps with
              | p :: ps' => do x <- py_format r' ps' ; Ok (p ++ x)%string
              | [] => Err IndexError
              end
            else if Ascii.eqb c' "%" then do x <- py_format r' ps ; Ok (String "%" x)
            else Err ValueError
        | EmptyString => Err ValueError
        end
      else do x <- py_format r ps ; Ok (String c x)
  end.
(** the two templates, vseqmetadata.py:1459-1466 and 1470-1476, with the schema name filled in *)
Definition template_tags : string :=
  "
            SELECT *
            FROM vsmd.simulations_extra AS s
            WHERE %s BETWEEN first_day_obs AND last_day_obs
                AND %s BETWEEN first_day_obs AND last_day_obs
                AND telescope = %s
                AND tags @> %s::JSONB
                AND creation_time >= NOW() - INTERVAL '%s days'
            ".
Definition template_no_tags : string :=
  "
            SELECT *
            FROM vsmd.simulations_extra AS s
            WHERE %s BETWEEN first_day_obs AND last_day_obs
                AND %s BETWEEN first_day_obs AND last_day_obs
                AND telescope = %
                AND creation_time >= NOW() - INTERVAL '%s days'
            ".
(** rows of simulations_extra (the columns used) *)
Record night_row := mkN {
  n_uuid : uuid; n_tel : string; n_first : option Z; n_last : option Z; n_created : Z; n_tags : list string }.
(** d BETWEEN first AND last; a null bound makes it null, i.e. not true *)
Definition between (d : Z) (lo hi : option Z) : bool :=
  match lo, hi with Some a, Some b => (a <=? d)%Z && (d <=? b)%Z | _, _ => false end.
Section Nights.
(** parameters as text, for the formatting only *)
Variable show_z : Z -> string.
Variable show_tags : list string -> string.
(** sims_on_nights, vseqmetadata.py:1410-1487, with both days given; [now] in seconds *)
Definition sims_on_nights (db : list night_row) (now : Z) (first last : Z) (tags : list string) (tel : string) (age : Z)
    : result (list night_row) :=
  match tags with
  | [] =>
      do _ <- py_format template_no_tags [show_z first; show_z last; tel; show_z age] ;
      Ok (filter (fun r => between first (n_first r) (n_last r) && between last (n_first r) (n_last r)
                           && String.eqb (n_tel r) tel && (now - age * 86400 <=? n_created r)%Z) db)
  | _ =>
      do _ <- py_format template_tags [show_z first; show_z last; tel; show_tags tags; show_z age] ;
      Ok (filter (fun r => between first (n_first r) (n_last r) && between last (n_first r) (n_last r)
                           && String.eqb (n_tel r) tel
                           && forallb (fun g => existsb (String.eqb g) (n_tags r)) tags
                           && (now - age * 86400 <=? n_created r)%Z) db)
  end.
End Nights.

(** * Nightly statistics *)
(** table nightly_stats, make_vseqmeta.sql:158-174, key (visitseq_uuid, day_obs, value_name, accumulated) *)
Record stat_row := mkSt { st_uuid : uuid; st_day : Z; st_name : string; st_acc : bool; st_vals : string }.
(** the stats column of sims_on_night_with_stats, vseqmetadata.py:1528-1540: JSONB_OBJECT_AGG keyed by value_name
    (a repeated key keeps the value that comes last) *)
Definition night_stats (rows : list stat_row) (u : uuid) (d : Z) : list (string * (bool * string)) :=
  fold_left (fun acc r => dset String.eqb acc (st_name r) (st_acc r, st_vals r))
            (filter (fun r => Nat.eqb (st_uuid r) u && Z.eqb (st_day r) d) rows) [].

(** * Visit sequence tables and their URLs *)
(** visitseq and the tables that inherit from it, make_vseqmeta.sql:5-37 *)
Inductive vtable := TMixed | TCompleted | TSims | TVisitseq.
Definition vtable_eqb (a b : vtable) : bool :=
  match a, b with TMixed, TMixed | TCompleted, TCompleted | TSims, TSims | TVisitseq, TVisitseq => true | _, _ => false end.
Record vs_row := mkVs { vs_table : vtable; vs_uuid : uuid; vs_url : option string; vs_rest : list string }.
(** a SELECT or UPDATE on visitseq also covers the inheriting tables *)
Definition in_table (tb : vtable) (r : vs_row) : bool :=
  match tb with TVisitseq => true | _ => vtable_eqb tb (vs_table r) end.
(** _find_visitseq_table, vseqmetadata.py:1391-1408 *)
Fixpoint find_table (db : list vs_row) (u : uuid) (tbs : list vtable) : result vtable :=
  match tbs with
  | [] => Err ValueError
  | tb :: t => if (0 <? length (filter (fun r => in_table tb r && Nat.eqb (vs_uuid r) u) db))%nat then Ok tb
               else find_table db u t
  end.
Definition find_visitseq_table (db : list vs_row) (u : uuid) : result vtable :=
  find_table db u [TMixed; TCompleted; TSims; TVisitseq].
(** set_visitseq_url, vseqmetadata.py:531-555 *)
Definition set_visitseq_url (db : list vs_row) (u : uuid) (url : string) : list vs_row * result unit :=
  match find_visitseq_table db u with
  | Err e => (db, Err e)
  | Ok tb => (map (fun r => if in_table tb r && Nat.eqb (vs_uuid r) u
                            then mkVs (vs_table r) (vs_uuid r) (Some url) (vs_rest r) else r) db, Ok tt)
  end.
(** get_visitseq_url, vseqmetadata.py:557-584 *)
Definition get_visitseq_url (db : list vs_row) (u : uuid) : result (option string) :=
  match filter (fun r => in_table TVisitseq r && Nat.eqb (vs_uuid r) u) db with
  | [] => Err ValueError
  | [r] => Ok (vs_url r)
  | _ => Err AssertionError
  end.

(** * Comments *)
(** table comments, make_vseqmeta.sql:54-59 *)
Record com_row := mkC { c_uuid : uuid; c_time : Z; c_author : option string; c_text : string }.
(** comment, vseqmetadata.py:1014-1057; the time is the client's clock *)
Definition comment (t : list com_row) (u : uuid) (now : Z) (author : option string) (text : string) : list com_row :=
  t ++ [mkC u now author text].
(** get_comments, vseqmetadata.py:1059-1094 *)
Definition get_comments (t : list com_row) (u : uuid) : list com_row := filter (fun r => Nat.eqb (c_uuid r) u) t.
(** the comments column of simulations_extra, make_vseqmeta.sql:94-97: an object keyed by the time *)
Definition view_comments (t : list com_row) (u : uuid) : list (Z * string) :=
  fold_left (fun acc r => dset Z.eqb acc (c_time r) (c_text r)) (get_comments t u) [].
