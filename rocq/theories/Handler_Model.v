(** Model of maf/plots/plot_handler.py (PlotHandler, apply_zp_norm).  A plot_dict is a list of keys and values; of values there
    are None, strings, numbers and pairs of numbers.  White space is the space.  The order in which Python goes through a set
    of strings is an argument [iter]; so are the random colours. *)
From Coq Require Import Ascii String.
From Verif Require Import Base Maps_Model.
Import List. Import ListNotations.
Open Scope string_scope.

Inductive val := VNone | VStr (s : string) | VNum (z : Z) | VPair (a b : Z).
Definition dict := list (string * val).
Definition get (d : dict) (k : string) : option val := dget String.eqb d k.
Definition put (k : string) (v : val) (d : dict) : dict := dset String.eqb d k v.
(** dict.update *)
Definition update (d by_ : dict) : dict := fold_left (fun acc kv => put (fst kv) (snd kv) acc) by_ d.

(** what the handler looks at in a metric bundle *)
Record bundle := {
  b_root : string; b_slicer : string; b_metric : string; b_units : option string; b_dtype : string; b_run : string; b_info : string;
  b_constraint : option string; b_dict : dict; b_col : string; b_col_units : string; b_group : string; b_subgroup : string; b_order : Z;
  b_values : option bool (** the metric values: none yet, or whether any is unmasked *) }.
Record plotter := { p_type : string; p_object : bool; p_defaults : dict }.

Definition mem (s : string) (l : list string) : bool := existsb (String.eqb s) l.
(** set(l) before it is gone through *)
Definition as_set (l : list string) : list string := nodup string_dec l.
(** lines 110-118 *)
Definition filter_order (s : string) : option Z :=
  dget String.eqb [(" ", -1); ("u", 0); ("g", 1); ("r", 2); ("i", 3); ("z", 4); ("y", 5)]%Z s.
Definition filter_colour (s : string) : option val :=
  dget String.eqb [("u", VStr "cyan"); ("g", VStr "g"); ("r", VStr "y"); ("i", VStr "r"); ("z", VStr "m"); ("y", VStr "k"); (" ", VNone)] s.
Definition bands : list string := ["u"; "g"; "r"; "i"; "z"; "y"].
(** list.insert: a negative place counts from the end, a large one is the end *)
Definition insert_at {A} (p : Z) (x : A) (l : list A) : list A :=
  let n := Z.to_nat (if (p <? 0)%Z then Z.max 0 (p + Z.of_nat (length l)) else p) in firstn n l ++ x :: skipn n l.
(** set_metric_bundles, lines 119-147: the place of a bundle *)
Fixpoint some_all {A B} (f : A -> option B) (l : list A) : list B :=
  match l with [] => [] | x :: t => match f x with Some y => y :: some_all f t | None => some_all f t end end.
Definition place (b : bundle) (so_far : nat) : Z :=
  let forder := some_all filter_order (filter (fun f => Nat.eqb (String.length f) 1) (Maps_Model.split "_"%char (b_root b))) in
  match forder with [] => Z.of_nat so_far | _ => last forder 0%Z end.
Definition add_bundle (l : list bundle) (b : bundle) : list bundle := insert_at (place b (length l)) b l.
Definition ordered (bs : list bundle) : list bundle := fold_left add_bundle bs [].
(** lines 148-150; an empty list has no first bundle *)
Definition check_slicers (bs : list bundle) : result unit :=
  match bs with
  | [] => Err IndexError
  | b0 :: _ => if forallb (fun b => String.eqb (b_slicer b) (b_slicer b0)) bs then Ok tt else Err ValueError
  end.

(** str.split() *)
Definition words (s : string) : list string := filter (fun w => negb (String.eqb w "")) (Maps_Model.split " "%char s).
(** str.split of a text *)
Fixpoint split_from (sep : string) (skip : nat) (s : string) : list string :=
  match s with
  | EmptyString => [EmptyString]
  | String c t => match skip with
                  | S k => split_from sep k t
                  | O => if String.prefix sep s then EmptyString :: split_from sep (String.length sep - 1) t
                         else match split_from sep O t with [] => [String c EmptyString] | h :: r => String c h :: r end
                  end
  end.
Definition split_on (sep s : string) : list string := split_from sep 0 s.
Fixpoint contains (sub s : string) : bool := String.prefix sub s || match s with EmptyString => false | String _ t => contains sub t end.
(** str.strip *)
Fixpoint lstrip (s : string) : string := match s with String " " t => lstrip t | _ => s end.
Fixpoint reverse (acc s : string) : string := match s with EmptyString => acc | String c t => reverse (String c acc) t end.
Definition strip (s : string) : string := reverse "" (lstrip (reverse "" (lstrip s))).
Definition subset (a b : list string) : bool := forallb (fun x => mem x b) a.
Definition difference (a b : list string) : list string := filter (fun x => negb (mem x b)) a.
(** set.intersection( *l) *)
Definition intersection (l : list (list string)) : list string :=
  match l with [] => [] | a :: t => filter (fun x => forallb (mem x) t) a end.

Section Iter.
  Variable iter : list string -> list string.
  Definition metric_names (bs : list bundle) : list string := iter (as_set (map b_metric bs)).
  Definition run_names (bs : list bundle) : list string := iter (as_set (map b_run bs)).
  Definition info_labels (bs : list bundle) : list string := iter (as_set (map b_info bs)).
  (** _combine_metric_names, lines 214-253 *)
  Definition joint_word (l : list string) : string :=
    let tmp := as_set l in if subset tmp bands then String.concat "" (filter (fun f => mem f tmp) bands) else String.concat "" (iter tmp).
  Definition joint_metric_names (bs : list bundle) : string :=
    let names := metric_names bs in
    match names with
    | [n] => n
    | _ =>
        let lists := map words names in
        match map (@length string) lists with
        | n :: ns => if forallb (Nat.eqb n) ns
                     then String.concat " " (map (fun i => joint_word (map (fun ws => nth i ws "") lists)) (seq 0 n))
                     else String.concat " " names
        | [] => String.concat " " names
        end
    end.
  (** lines 255-262 *)
  Definition joint_run_names (bs : list bundle) : string := String.concat " " (run_names bs).
  (** _combine_metadata, lines 264-345.  The sort by length keeps the order of equal lengths. *)
  Definition phrases (m : string) : list string :=
    as_set (map strip (if contains " and " m then split_on " and " m else if contains ", " m then split_on ", " m else [m])).
  Fixpoint insert_len (s : string) (l : list string) : list string :=
    match l with [] => [s] | x :: t => if Nat.leb (String.length s) (String.length x) then s :: l else x :: insert_len s t end.
  Definition sort_len (l : list string) : list string := fold_right insert_len [] l.
  Fixpoint heads (l : list (list string)) : result (list string) :=
    match l with
    | [] => Ok []
    | d :: t => match iter d with [] => Err IndexError | x :: _ => do r <- heads t; Ok (x :: r) end
    end.
  Definition same_set (a b : list string) : bool := subset a b && subset b a.
  (** lines 279-345: more than one label *)
  Definition several_labels (labels : list string) : result string :=
    let splitmetas := map phrases labels in
    let common := intersection splitmetas in
    let diff := map (fun x => difference x common) splitmetas in
    let diffsplit := map (fun d => match iter d with [] => [] | x :: _ => as_set (words x) end) diff in
    let diffcommon := intersection diffsplit in
    let diffdiff := map (fun x => difference x diffcommon) diffsplit in
    let tail dc := " " ++ String.concat " " dc ++ " " ++ String.concat " " (iter common) in
    if existsb (fun d => match d with [] => true | _ => false end) diffdiff
    then do hs <- heads diff; Ok (String.concat ", " (sort_len hs) ++ tail [])
    else
      let in_order := flat_map (fun f => filter (fun d => match d with [x] => String.eqb x f | _ => false end) diffdiff) bands in
      let at_end := filter (fun d => negb (existsb (same_set d) in_order)) diffdiff in
      Ok (String.concat ", " (map (fun d => String.concat " " (iter d)) (in_order ++ at_end)) ++ tail (iter diffcommon)).
  Definition joint_metadata (bs : list bundle) : result string :=
    match info_labels bs with [m] => Ok m | labels => several_labels labels end.
  (** _combine_constraints, lines 347-355 *)
  Definition joint_constraints (bs : list bundle) : string := String.concat "; " (iter (as_set (some_all b_constraint bs))).

  (** _build_title, lines 357-374 *)
  Definition title (bs : list bundle) : result string :=
    let one l pre := match l with [x] => pre ++ x | _ => "" end in
    let t := one (run_names bs) "" ++ one (info_labels bs) " " ++ one (metric_names bs) ": " in
    do j <- joint_metadata bs;
    Ok (if String.eqb t "" then j ++ " " ++ joint_metric_names bs else t).
  (** _build_x_ylabels, lines 376-426, with len_max 25; None is VNone.  In the general case the ylabels of the bundles are used
      when they agree. *)
  Definition newline : string := String (Ascii.ascii_of_nat 10) "".
  Definition metric_units (b : bundle) : result val :=
    match b_units b with Some u => Ok (VStr (b_metric b ++ " (" ++ u ++ ")")) | None => Err TypeError end.
  Definition val_dec (a b : val) : {a = b} + {a <> b}.
  Proof. decide equality; first [apply string_dec | apply Z.eq_dec]. Defined.
  Definition xylabels (bs : list bundle) (ptype : string) : result (val * val) :=
    if String.eqb ptype "BinnedData" then
      match bs with
      | [b] => do y <- metric_units b;
               Ok (VStr (b_col b ++ (if Nat.ltb (String.length (b_col b)) 25 then " (" else " " ++ newline ++ "(") ++ b_col_units b ++ ")"), y)
      | _ => Ok (VStr (String.concat ", " (iter (as_set (map b_col bs)))), VStr (joint_metric_names bs))
      end
    else if String.eqb ptype "MetricVsH" then
      match bs with
      | [b] => do y <- metric_units b; Ok (VStr "H (mag)", y)
      | _ => Ok (VStr "H (mag)", VStr (joint_metric_names bs))
      end
    else
      match bs with
      | [b] => Ok (VStr (match b_units b with
                         | Some (String _ _ as u) => b_metric b ++ (if Nat.ltb (String.length (b_metric b)) 25 then " (" else newline ++ "(") ++ u ++ ")"
                         | _ => b_metric b
                         end), VNone)
      | _ => Ok (VStr (joint_metric_names bs),
                 match nodup val_dec (some_all (fun b => get (b_dict b) "ylabel") bs) with [y] => y | _ => VNone end)
      end.
  (** _build_legend_labels, lines 428-450 *)
  Definition auto_label (bs : list bundle) (b : bundle) : string :=
    (match run_names bs with _ :: _ :: _ => b_run b | _ => "" end) ++
    (match info_labels bs with _ :: _ :: _ => " " ++ b_info b | _ => "" end) ++
    (match metric_names bs with _ :: _ :: _ => " " ++ b_metric b | _ => "" end).
  Definition legend_labels (bs : list bundle) : list val :=
    match bs with
    | [_] => [VNone]
    | _ => map (fun b => match get (b_dict b) "label" with Some v => v | None => VStr (auto_label bs b) end) bs
    end.
  (** np.unique of a list: its length.  Sorting None raises, as does a list of pairs and other things; pairs are flattened.  (A number
      equal to the text of another value is not looked at.) *)
  Definition is_none (v : val) : bool := match v with VNone => true | _ => false end.
  Definition is_pair (v : val) : bool := match v with VPair _ _ => true | _ => false end.
  Definition unique_len (l : list val) : result nat :=
    match l with
    | [] => Ok 0
    | [VNone] => Ok 1
    | _ =>
        if forallb is_pair l then Ok (length (nodup Z.eq_dec (flat_map (fun v => match v with VPair a b => [a; b] | _ => [] end) l)))
        else if existsb is_pair l then Err ValueError
        else if existsb is_none l then Err TypeError
        else Ok (length (nodup val_dec l))
    end.
  (** _build_colors, lines 452-491 *)
  Variable random : nat -> val.
  Definition colour (b : bundle) : val :=
    match get (b_dict b) "color" with
    | Some v => v
    | None => match b_constraint b with
              | Some c => if contains "filter" c
                          then fold_left (fun acc v => if Nat.eqb (String.length v) 1 then match filter_colour v with Some x => x | None => acc end else acc)
                                         (Maps_Model.split """"%char c) (VStr "b")
                          else VStr "b"
              | None => VStr "b"
              end
    end.
  Definition colours (bs : list bundle) : result (list val) :=
    match bs with
    | [b] => Ok [match get (b_dict b) "color" with Some v => v | None => VStr "b" end]
    | _ => do n <- unique_len (map colour bs);
           Ok (if Nat.eqb n 1 then map random (seq 0 (length bs)) else map colour bs)
    end.
  (** _build_cbar_format, lines 493-508 *)
  Definition cbar (bs : list bundle) : val :=
    match nodup string_dec (map b_dtype bs) with [t] => if String.eqb t "int" then VStr "%d" else VNone | _ => VNone end.

  (** set_plot_dicts, lines 157-212, for the bundle at one place; [user] is the dictionary given for it *)
  Definition one_dict (auto_title : val) (label col cb : val) (xy : option (val * val * dict)) (before bdict : dict) (user : option dict) : dict :=
    let d := update [("title", auto_title); ("label", label); ("color", col); ("cbar_format", cb)] before in
    let d := match xy with
             | Some (x, y, defaults) => update (put "ylabel" y (put "xlabel" x d)) (filter (fun kv => negb (is_none (snd kv))) defaults)
             | None => d
             end in
    let d := update d bdict in
    match user with Some u => update d u | None => d end.
  Inductive given := Nothing | Single (d : dict) | Many (l : list dict).
  Definition user_dict (g : given) (i : nat) : result (option dict) :=
    match g with Nothing => Ok None | Single d => Ok (Some d) | Many l => match nth_error l i with Some d => Ok (Some d) | None => Err IndexError end end.
  Fixpoint map_res {A B} (f : A -> result B) (l : list A) : result (list B) :=
    match l with [] => Ok [] | x :: t => do y <- f x; do r <- map_res f t; Ok (y :: r) end.
  (** str.endswith *)
  Definition ends_with (s suffix : string) : bool :=
    String.eqb (String.substring (String.length s - String.length suffix) (String.length suffix) s) suffix && Nat.leb (String.length suffix) (String.length s).
  Definition values_of (k : string) (ds : list dict) : list val := some_all (fun d => get d k) ds.
  (** np.max and np.min of numbers; other values raise *)
  Definition extreme (f : Z -> Z -> Z) (l : list val) : result val :=
    match some_all (fun v => match v with VNum z => Some z | _ => None end) l with
    | z :: t => if Nat.eqb (length (z :: t)) (length l) then Ok (VNum (fold_left f t z)) else Err TypeError
    | [] => Err TypeError
    end.
  (** _check_plot_dicts, lines 573-633: the keys to reset are collected and reset at the end *)
  Fixpoint check_keys (t : val) (keys : list string) (reset : list string) (ds : list dict) : result (list dict) :=
    match keys with
    | [] => Ok (fold_left (fun acc k => map (put k VNone) acc) reset ds)
    | k :: rest =>
        do n <- unique_len (values_of k ds);
        if Nat.ltb 1 n then
          if ends_with k "Max" then do m <- extreme Z.max (values_of k ds); check_keys t rest reset (map (put k m) ds)
          else if ends_with k "Min" then do m <- extreme Z.min (values_of k ds); check_keys t rest reset (map (put k m) ds)
          else if String.eqb k "title" then check_keys t rest reset (map (put "title" t) ds)
          else check_keys t rest (reset ++ [k]) ds
        else check_keys t rest reset ds
    end.
  Definition keys2_check : list string := ["xlim"; "ylim"; "color_min"; "color_max"; "title"].
  Definition check_dicts (t : val) (bs : list bundle) (ds : list dict) : result (list dict) :=
    if negb (Nat.eqb (length ds) (length bs)) then Err ValueError
    else if Nat.leb (length (nodup val_dec (values_of "subplot" ds))) 1 then check_keys t keys2_check [] ds else Ok ds.
  Definition set_plot_dicts (bs : list bundle) (before : list dict) (g : given) (pf : option plotter) (reset : bool) : result (list dict) :=
    let before := if reset then map (fun _ => []) bs else before in
    let labels := legend_labels bs in
    do cols <- colours bs;
    do t <- title bs;
    do xy <- match pf with Some p => do l <- xylabels bs (p_type p); Ok (Some (l, p_defaults p)) | None => Ok None end;
    do ds <- map_res (fun i =>
               do u <- user_dict g i;
               match nth_error bs i, nth_error before i with
               | Some b, Some d => Ok (one_dict (VStr t) (nth i labels VNone) (nth i cols VNone) (cbar bs) xy d (b_dict b) u)
               | _, _ => Err IndexError
               end) (seq 0 (length bs));
    check_dicts (VStr t) bs ds.
  (** set_metric_bundles, lines 119-155 *)
  Definition set_metric_bundles (given_bs : list bundle) : result (list bundle * list dict) :=
    let bs := ordered given_bs in
    do _ <- check_slicers bs;
    do ds <- set_plot_dicts bs [] Nothing None true;
    Ok (bs, ds).

  (** _build_file_root, lines 510-533, before name_sanitize; upper of the first four letters of the slicer is an argument *)
  Variable upper4 : string -> string.
  Definition file_root (bs : list bundle) (suffix : option string) : result string :=
    do r <- match bs with
            | [b] => Ok (b_root b)
            | b :: _ => do j <- joint_metadata bs;
                        Ok (String.concat "_" [joint_run_names bs; joint_metric_names bs; j] ++ "_" ++ upper4 (b_slicer b))
            | [] => Err IndexError
            end;
    Ok (match suffix with Some s => r ++ "_" ++ s | None => r end).
  (** _build_display_dict, lines 535-571, for more than one bundle: group, subgroup and order *)
  Definition display (bs : list bundle) : string * string * Z :=
    let pick l := match as_set l with [x] => x | _ => "Comparisons" end in
    (pick (map b_group bs), pick (map b_subgroup bs),
     fold_left (fun o b => if (o <? b_order b)%Z then (b_order b + 1)%Z else o) bs 0%Z).
  (** plot, lines 665-745: None without effect for values that are objects; otherwise the bundles that are drawn one over the other, the
      type of the plot, whether there is a legend, and whether the figure is saved and recorded *)
  Definition drawn (bs : list bundle) : list bundle := filter (fun b => match b_values b with Some true => true | _ => false end) bs.
  Definition plot (bs : list bundle) (before : list dict) (pf : plotter) (g : given) (savefig : bool)
    : result (option (list dict * list bundle * string * bool * bool)) :=
    if negb (p_object pf) &&
       existsb (fun b => String.eqb (b_dtype b) "object" && match get (b_dict b) "metric_is_color" with Some (VNum z) => Z.eqb z 0 | Some _ => false | None => true end) bs
    then Ok None
    else
      do ds <- set_plot_dicts bs before g (Some pf) false;
      do d0 <- match ds with d :: _ => Ok d | [] => Err IndexError end;
      let many := match bs with _ :: _ :: _ => true | _ => false end in
      let legend := match get d0 "legend_loc" with Some VNone => false | Some _ => true | None => many end in
      Ok (Some (ds, drawn bs, (if many then "Combo" ++ p_type pf else p_type pf), legend,
                savefig && negb (match drawn bs with [] => true | _ => false end))).
End Iter.
