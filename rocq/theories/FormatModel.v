(** Model of SimCatalogs.format (simim/siminterface/_rawsiminterface.py 342-580), of
    SimHandler.get_mass_index (simhandler.py 385-426) and of the chunked catalogue
    loader (_illustris_datahandling.py 30-94). No proofs here.

    Numbers are real: casts to the stored dtypes (float32, int) are not modelled. A
    data.hdf5 file is a record; every h5py call that changes it is one operation, done
    completely or not at all, so that a crash is a prefix of the list of operations. *)
From Verif Require Import Dict Util RealUtil SnapModel.
From Coq Require Import Reals DecimalString.
Open Scope string_scope.
Open Scope list_scope.
Open Scope nat_scope.

(** * Raw catalogues *)
(** a numpy column with one value per halo, or a row of values per halo *)
Inductive col := Col1 (l : list R) | Col2 (l : list (list R)).
Definition rows (c : col) : nat := match c with Col1 l => length l | Col2 l => length l end.
Definition col_map (f : R -> R) (c : col) : col :=
  match c with Col1 l => Col1 (map f l) | Col2 l => Col2 (map (map f) l) end.
(** one entry (new name, dtype, units, h dependence) of a field; the dtype is dropped *)
Record fspec := mkFS { fs_name : string; fs_units : string; fs_h : Z }.
(** a raw field name with its entries *)
Definition fields := dict (list fspec).

(** [{**a, **b}] *)
Definition dmerge {A} (a b : dict A) : dict A := fold_left (fun d kv => dset d (fst kv) (snd kv)) b a.

(** what a SimCatalogs instance holds. [ct_load] is self._loader: the columns and
    n_halos of a snapshot; [ct_tr] is transform_keys, whose functions all act on each
    element (illustris.py 250-276, universemachine.py 180-192, uchuu.py 160-175) *)
Record catalog := mkCat {
  ct_snaps : list Z; ct_attrs : dict R; ct_number : option Z; ct_meta : list meta; ct_hub : R;
  ct_tr : dict (R -> R -> R); ct_basic : fields; ct_dm : fields; ct_matter : fields;
  ct_load : Z -> list string -> exc (dict col * nat) }.

(** * The file *)
Record dset_ := mkD { d_name : string; d_vals : col; d_units : option string; d_h : option Z }.
Record group := mkG { g_cuts : option (list (R * nat)); g_data : list dset_; g_meta : option (list meta) }.
Record ffile := mkF { f_attrs : dict R; f_number : option Z; f_table : option (list meta); f_groups : list (Z * group) }.
(** the file, if it exists, and the snapshots whose raw files were deleted *)
Record world := mkW { w_file : option ffile; w_gone : list Z }.

Fixpoint zget {A} (l : list (Z * A)) (s : Z) : option A :=
  match l with [] => None | (k, v) :: r => if Z.eqb k s then Some v else zget r s end.
Definition zput {A} (l : list (Z * A)) (s : Z) (f : A -> A) : list (Z * A) :=
  map (fun kv => if Z.eqb (fst kv) s then (fst kv, f (snd kv)) else kv) l.
Definition zdel {A} (l : list (Z * A)) (s : Z) : list (Z * A) := filter (fun kv => negb (Z.eqb (fst kv) s)) l.

(** ** Operations *)
Inductive fop :=
| OpNew                                            (* h5py.File(..., "w") *)
| OpAttr (k : string) (v : R)                      (* file.attrs[k] = v *)
| OpNumber (n : Z)                                 (* file.attrs['number_snaps'] = n *)
| OpTable (ms : list meta)                         (* file.attrs['snapshots'] = ms *)
| OpDel (s : Z)                                    (* if ... in file.keys(): del file[...] *)
| OpGroup (s : Z)                                  (* create_group *)
| OpCuts (s : Z) (c : list (R * nat))              (* create_dataset('mass_cuts') *)
| OpData (s : Z) (name : string) (v : col)         (* create_dataset(name) *)
| OpUnits (s : Z) (name : string) (u : string)     (* attrs['units'] *)
| OpH (s : Z) (name : string) (h : Z)              (* attrs['h dependence'] *)
| OpMeta (s : Z) (ms : list meta)                  (* snap_grp.attrs['metadata'] *)
| OpRm (s : Z).                                    (* rm -r of the raw files *)

Definition in_file (w : world) (k : ffile -> exc ffile) : exc world :=
  match w_file w with
  | None => Raise OSError
  | Some f => do f' <- k f ;; Ok (mkW (Some f') (w_gone w))
  end.
Definition set_groups (f : ffile) (g : list (Z * group)) : ffile := mkF (f_attrs f) (f_number f) (f_table f) g.
(** an operation on an existing group *)
Definition in_group (w : world) (s : Z) (k : group -> exc group) : exc world :=
  in_file w (fun f =>
    match zget (f_groups f) s with
    | None => Raise KeyError
    | Some g => do g' <- k g ;; Ok (set_groups f (zput (f_groups f) s (fun _ => g')))
    end).
Definition data_names (g : group) : list string :=
  (match g_cuts g with Some _ => ["mass_cuts"] | None => [] end) ++ map d_name (g_data g).
Definition set_data (g : group) (d : list dset_) : group := mkG (g_cuts g) d (g_meta g).
Definition put_ds (name : string) (k : dset_ -> dset_) (g : group) : exc group :=
  if smem name (map d_name (g_data g))
  then Ok (set_data g (map (fun d => if String.eqb (d_name d) name then k d else d) (g_data g)))
  else Raise KeyError.

Definition apply_op (w : world) (o : fop) : exc world :=
  match o with
  | OpNew => Ok (mkW (Some (mkF [] None None [])) (w_gone w))
  | OpAttr k v => in_file w (fun f => Ok (mkF (dset (f_attrs f) k v) (f_number f) (f_table f) (f_groups f)))
  | OpNumber n => in_file w (fun f => Ok (mkF (f_attrs f) (Some n) (f_table f) (f_groups f)))
  | OpTable ms => in_file w (fun f => Ok (mkF (f_attrs f) (f_number f) (Some ms) (f_groups f)))
  | OpDel s => in_file w (fun f => Ok (set_groups f (zdel (f_groups f) s)))
  | OpGroup s => in_file w (fun f =>
      match zget (f_groups f) s with
      | Some _ => Raise ValueError
      | None => Ok (set_groups f (f_groups f ++ [(s, mkG None [] None)]))
      end)
  | OpCuts s c => in_group w s (fun g =>
      if smem "mass_cuts" (data_names g) then Raise ValueError else Ok (mkG (Some c) (g_data g) (g_meta g)))
  | OpData s name v => in_group w s (fun g =>
      if smem name (data_names g) then Raise ValueError else Ok (set_data g (g_data g ++ [mkD name v None None])))
  | OpUnits s name u => in_group w s (put_ds name (fun d => mkD (d_name d) (d_vals d) (Some u) (d_h d)))
  | OpH s name h => in_group w s (put_ds name (fun d => mkD (d_name d) (d_vals d) (d_units d) (Some h)))
  | OpMeta s ms => in_group w s (fun g => Ok (mkG (g_cuts g) (g_data g) (Some ms)))
  | OpRm s => Ok (mkW (w_file w) (s :: w_gone w))
  end.
(** a run: operations until one raises, or until the code between them raises *)
Fixpoint exec (w : world) (l : list (exc fop)) : world * exc unit :=
  match l with
  | [] => (w, Ok tt)
  | Raise e :: _ => (w, Raise e)
  | Ok o :: r => match apply_op w o with Ok w' => exec w' r | Raise e => (w, Raise e) end
  end.

(** * One snapshot: 467-573 *)
(** 474-478 *)
Definition transform (h : R) (tr : dict (R -> R -> R)) (sub : dict col) : dict col :=
  fold_left (fun d kf => match dget d (fst kf) with
                         | Some c => dset d (fst kf) (col_map (fun x => snd kf x h) c)
                         | None => d end) tr sub.
(** [subhalos[key][:,j]] *)
Definition comp (c : col) (j : nat) : exc (list R) :=
  match c with
  | Col1 _ => Raise IndexError
  | Col2 l => mapM (fun r => match nth_error r j with Some x => Ok x | None => Raise IndexError end) l
  end.
(** assignment of a column to a field of [n] rows; a column of one row is repeated *)
Definition fit (n : nat) (l : list R) : exc (list R) :=
  if length l =? n then Ok l
  else match l with [x] => Ok (repeat x n) | _ => Raise ValueError end.
(** 510-524, one raw field; assigning a two-dimensional column to a field is a ValueError *)
Definition basic_field (n : nat) (sub : dict col) (key : string) (specs : list fspec) : exc (list (fspec * list R)) :=
  match specs with
  | [] => Raise IndexError
  | [sp] =>
      if n =? 0 then Ok [(sp, [])]
      else do c <- dfind sub key ;;
           match c with Col1 l => do v <- fit n l ;; Ok [(sp, v)] | Col2 _ => Raise ValueError end
  | _ =>
      mapM (fun js =>
        if n =? 0 then Ok (snd js, [])
        else do c <- dfind sub key ;; do l <- comp c (fst js) ;; do v <- fit n l ;; Ok (snd js, v))
        (combine (seq 0 (length specs)) specs)
  end.
Fixpoint nodup_str (l : list string) : bool :=
  match l with [] => true | x :: r => negb (smem x r) && nodup_str r end.
(** 500-524: the structured array; a repeated name makes the dtype invalid *)
Definition basic_columns (n : nat) (sub : dict col) (bf : fields) : exc (list (fspec * list R)) :=
  do _ <- check (nodup_str (flat_map (fun ks => map fs_name (snd ks)) bf)) ValueError ;;
  do cols <- mapM (fun ks => basic_field n sub (fst ks) (snd ks)) bf ;;
  Ok (concat cols).
(** [basic_properties['mass']] *)
Definition mass_column (cols : list (fspec * list R)) : exc (list R) :=
  match find (fun sc => String.eqb (fs_name (fst sc)) "mass") cols with
  | Some sc => Ok (snd sc)
  | None => Raise ValueError
  end.
(** [x[sorted_inds]] for a row index *)
Definition take (c : col) (p : list nat) : exc col :=
  if forallb (fun i => i <? rows c) p
  then Ok (match c with Col1 l => Col1 (pick l p) | Col2 l => Col2 (pick l p) end)
  else Raise IndexError.
(** 529-533 *)
Definition sort_others (n : nat) (sub : dict col) (of : fields) (p : list nat) : exc (dict (list fspec * col)) :=
  mapM (fun ks => if n =? 0 then Ok (fst ks, (snd ks, Col2 []))
                  else do c <- dfind sub (fst ks) ;; do c' <- take c p ;; Ok (fst ks, (snd ks, c'))) of.
(** 537-546: np.logspace(6,20,141)[::-1] *)
Definition cut_masses : list R := map (fun i => Rpower 10 (20 - INR i / 10)%R) (seq 0 141).
(** [np.where(mass >= m)[0]] *)
Definition where_ge (mass : list R) (m : R) : list nat :=
  filter (fun i => rleb m (nth i mass 0%R)) (seq 0 (length mass)).
Definition cut_index (mass : list R) (m : R) : nat :=
  match where_ge mass m with [] => 0 | a :: r => S (fold_left Nat.max r a) end.
Definition mass_cuts (mass : list R) : list (R * nat) := map (fun m => (m, cut_index mass m)) cut_masses.

(** 553-573: the writes of one dataset *)
Definition write_ds (s : Z) (sp : fspec) (v : col) : list (exc fop) :=
  [Ok (OpData s (fs_name sp) v); Ok (OpUnits s (fs_name sp) (fs_units sp)); Ok (OpH s (fs_name sp) (fs_h sp))].
Definition write_other (s : Z) (specs : list fspec) (c : col) : list (exc fop) :=
  match specs with
  | [] => [Raise IndexError]
  | [sp] => write_ds s sp c
  | _ => flat_map (fun js => if String.prefix "none" (fs_name (snd js)) then []
                             else match comp c (fst js) with
                                  | Ok v => write_ds s (snd js) (Col1 v)
                                  | Raise e => [Raise e]
                                  end) (combine (seq 0 (length specs)) specs)
  end.
Definition write_group (s : Z) (cuts : list (R * nat)) (cols : list (fspec * list R))
    (others : dict (list fspec * col)) (mrows : list meta) : list (exc fop) :=
  [Ok (OpDel s); Ok (OpGroup s); Ok (OpCuts s cuts)] ++
  flat_map (fun sc => write_ds s (fst sc) (Col1 (snd sc))) cols ++
  flat_map (fun ko => write_other s (fst (snd ko)) (snd (snd ko))) others ++
  [Ok (OpMeta s mrows)].
(** 467-580. np.argsort is an argument; the masses are put in descending order by
    reversing its result *)
Definition snap_prep (asort : list R -> list nat) (ct : catalog) (bf of : fields) (sub0 : dict col) (n : nat)
  : exc (list (R * nat) * list (fspec * list R) * dict (list fspec * col)) :=
  let sub := if n =? 0 then sub0 else transform (ct_hub ct) (ct_tr ct) sub0 in
  do cols <- basic_columns n sub bf ;;
  do mass <- mass_column cols ;;
  let p := rev (asort mass) in
  let cols := map (fun sc => (fst sc, pick (snd sc) p)) cols in
  do others <- sort_others n sub of p ;;
  do mass <- mass_column cols ;;
  Ok (mass_cuts mass, cols, others).
Definition snap_steps (asort : list R -> list nat) (ct : catalog) (bf of : fields) (clean : bool) (s : Z) : list (exc fop) :=
  match (do ld <- ct_load ct s (dkeys (dmerge bf of)) ;; snap_prep asort ct bf of (fst ld) (snd ld)) with
  | Raise e => [Raise e]
  | Ok (cuts, cols, others) =>
      write_group s cuts cols others (filter (fun m => Z.eqb (m_index m) s) (ct_meta ct)) ++
      (if clean then [Ok (OpRm s)] else [])
  end.

(** * format: 342-580 *)
(** the name of a group, "Snapshot {}" *)
Definition snap_name (s : Z) : string := ("Snapshot " ++ NilEmpty.string_of_int (Z.to_int s))%string.
(** [list(file.keys())[0]]: h5py lists names in alphabetical order *)
Fixpoint first_group (l : list (Z * group)) : option (Z * group) :=
  match l with
  | [] => None
  | a :: r => match first_group r with
              | Some b => if String.ltb (snap_name (fst b)) (snap_name (fst a)) then Some b else Some a
              | None => Some a
              end
  end.
Fixpoint insert_row (m : meta) (l : list meta) : list meta :=
  match l with
  | [] => [m]
  | a :: r => if (m_index m <=? m_index a)%Z then m :: l else a :: insert_row m r
  end.
(** [np.sort(meta_snaps, order='index')]; rows with the same index keep their order *)
Definition sort_rows (l : list meta) : list meta := fold_right insert_row [] l.
(** 453-456 *)
Definition merge_rows (old new : list meta) (todo : list Z) : list meta :=
  sort_rows (filter (fun m => negb (zmem (m_index m) todo)) old ++
             filter (fun m => zmem (m_index m) todo) new).

Record fargs := mkArgs { a_remake : bool; a_overwrite : bool; a_basic : bool; a_clean : bool }.
(** 396-409 and the choice of snapshots 411-450. The question asked before raw files are
    deleted (386-396) is taken to be answered with y here; AskModel.v adds it *)
Definition is_new (w : world) (a : fargs) : bool :=
  match w_file w with None => true | Some f => a_remake a || match f_groups f with [] => true | _ => false end end.
Definition present (w : world) (s : Z) : bool :=
  match w_file w with None => false | Some f => match zget (f_groups f) s with Some _ => true | None => false end end.
(** snaps_to_do *)
Definition todo (ct : catalog) (a : fargs) (w : world) : list Z :=
  if is_new w a then ct_snaps ct
  else filter (fun s => negb (present w s)) (ct_snaps ct) ++
       (if a_overwrite a then filter (present w) (ct_snaps ct) else []).
(** all_fields and other_fields, 411-416 and 430-438 *)
Definition other_fields (ct : catalog) (a : fargs) (w : world) : exc fields :=
  if is_new w a then Ok (if a_basic a then [] else dmerge (ct_dm ct) (ct_matter ct))
  else match w_file w with
       | None => Raise OSError
       | Some f =>
           match first_group (f_groups f) with
           | None => Raise IndexError
           | Some (_, g) =>
               let l := dmerge (ct_matter ct) (ct_dm ct) in
               do _ <- check (forallb (fun ks => match snd ks with [] => false | _ => true end) l) IndexError ;;
               Ok (filter (fun ks => match snd ks with sp :: _ => smem (fs_name sp) (data_names g) | [] => false end) l)
           end
       end.
(** 411-459: the writes before the first snapshot *)
Definition head_steps (ct : catalog) (a : fargs) (w : world) : list (exc fop) :=
  if is_new w a then
    Ok OpNew :: map (fun kv => Ok (OpAttr (fst kv) (snd kv))) (ct_attrs ct) ++
    (match ct_number ct with Some n => [Ok (OpNumber n)] | None => [] end) ++
    [Ok (OpTable (ct_meta ct))]
  else match w_file w with
       | None => [Raise OSError]
       | Some f =>
           match f_table f, f_number f with
           | Some old, Some _ =>
               let ms := merge_rows old (ct_meta ct) (todo ct a w) in
               [Ok (OpTable ms); Ok (OpNumber (Z.of_nat (length ms)))]
           | _, _ => [Raise KeyError]
           end
       end.
Definition format_steps (asort : list R -> list nat) (ct : catalog) (a : fargs) (w : world) : list (exc fop) :=
  match other_fields ct a w with
  | Raise e => [Raise e]
  | Ok of => head_steps ct a w ++ flat_map (snap_steps asort ct (ct_basic ct) of (a_clean a)) (todo ct a w)
  end.
(** a call that runs to its end or to an exception *)
Definition format (asort : list R -> list nat) (ct : catalog) (a : fargs) (w : world) : world * exc unit :=
  exec w (format_steps asort ct a w).
(** a call that is killed after [k] operations *)
Definition format_crash (asort : list R -> list nat) (ct : catalog) (a : fargs) (k : nat) (w : world) : world :=
  fst (exec w (firstn k (format_steps asort ct a w))).

(** * get_mass_index: simhandler.py 385-426 *)
Definition get_mass_index (table : list meta) (f : ffile) (h : R) (mass : R) (snap : Z) (in_h : bool) : exc nat :=
  if existsb (fun m => Z.eqb (m_index m) snap) table then
    match zget (f_groups f) snap with
    | None => Raise KeyError
    | Some g =>
        match g_cuts g with
        | None => Raise KeyError
        | Some cuts =>
            let m := if in_h then mass else (mass / h)%R in
            let k := length (filter (fun c => rltb 0 (fst c - m)%R) cuts) in
            if k <? 1 then Ok 0
            else match nth_error cuts (if k =? length cuts then length cuts - 1 else k) with
                 | Some c => Ok (snd c)
                 | None => Raise IndexError
                 end
        end
    end
  else Raise ValueError.

(** * Chunked catalogues: _illustris_datahandling.py 30-94 *)
(** one file of a snapshot: N..._Total and N..._ThisFile of its header, and its columns *)
Record chunk := mkChunk { ch_total : nat; ch_here : nat; ch_data : dict col }.
(** np.zeros of the field's shape with [n] rows *)
Definition zeros_like (c : col) (n : nat) : col :=
  match c with
  | Col1 _ => Col1 (repeat 0%R n)
  | Col2 l => Col2 (repeat (repeat 0%R (match l with r :: _ => length r | [] => 0 end)) n)
  end.
(** [dst[o:o+len] = src] *)
Definition splice {A} (dst : list A) (o : nat) (src : list A) : list A :=
  firstn o dst ++ src ++ skipn (o + length src) dst.
(** 79-82; fewer rows left in the target than in the source is a ValueError, except that
    one row is dropped when nothing is left. The chunks of a field are taken to have the
    same number of columns; another number of dimensions is a ValueError *)
Definition put_rows (dst : col) (o : nat) (src : col) : exc col :=
  if o + rows src <=? rows dst then
    match dst, src with
    | Col1 d, Col1 v => Ok (Col1 (splice d o v))
    | Col2 d, Col2 v => Ok (Col2 (splice d o v))
    | _, _ => Raise ValueError
    end
  else if rows src =? 1 then Ok dst
  else Raise ValueError.
(** the exceptions of the form Exception("...") *)
Definition plain_exception : exn := UserExn 2.
(** 49-61 *)
Fixpoint alloc (f0 : chunk) (n : nat) (fs : list string) (res : dict col) : exc (dict col) :=
  match fs with
  | [] => Ok res
  | k :: r => match dget (ch_data f0) k with
              | None => Raise plain_exception
              | Some c => alloc f0 n r (dset res k (zeros_like c n))
              end
  end.
(** 72-82: the fields of one file; returns the rows of the last field read *)
Fixpoint read_chunk (f : chunk) (o : nat) (fs : list string) (last : nat) (res : dict col) : exc (dict col * nat) :=
  match fs with
  | [] => Ok (res, last)
  | k :: r => match dget (ch_data f) k with
              | None => Raise plain_exception
              | Some c =>
                  do d <- dfind res k ;; do d' <- put_rows d o c ;;
                  read_chunk f o r (rows c) (dset res k d')
              end
  end.
(** 66-85; with no field at all the variable [shape] is not bound *)
Fixpoint read_chunks (l : list chunk) (o : nat) (fs : list string) (res : dict col) : exc (dict col) :=
  match l with
  | [] => Ok res
  | f :: r =>
      if ch_here f =? 0 then read_chunks r o fs res
      else match fs with
           | [] => Raise NameError
           | _ => do rl <- read_chunk f o fs 0 res ;; read_chunks r (o + snd rl) fs (fst rl)
           end
  end.
(** what _loadObjects returns: a dictionary with its count, or the array of one field *)
Inductive loaded := LDict (n : nat) (d : dict col) | LArray (c : col).
(** [l] are the files the header of the first one announces; the argument [fields] is
    the list format passes, if empty all fields of the first file are read *)
Definition load_objects (l : list chunk) (fs : list string) : exc loaded :=
  match l with
  | [] => Raise OSError
  | f0 :: _ =>
      let n := ch_total f0 in
      if n =? 0 then Ok (LDict 0 [])
      else
        let fs := match fs with [] => dkeys (ch_data f0) | _ => fs end in
        do res <- alloc f0 n fs [] ;;
        do res <- read_chunks l 0 fs res ;;
        match fs with
        | [k] => do c <- dfind res k ;; Ok (LArray c)
        | _ => Ok (LDict n res)
        end
  end.
(** IllustrisCatalogs._loader, illustris.py 333-335: an array has no method pop *)
Definition illustris_loader (files : Z -> list chunk) (s : Z) (fs : list string) : exc (dict col * nat) :=
  do r <- load_objects (files s) fs ;;
  match r with LDict n d => Ok (d, n) | LArray _ => Raise AttributeError end.
