(** Vocabulary for the statements about formatted catalogues (C35, C36, C39, C57). *)
From Verif Require Import Dict Util RealUtil SnapModel FormatModel.
From Coq Require Import Reals Permutation Sorted.
Open Scope string_scope.
Open Scope list_scope.
Open Scope nat_scope.

(** value [j] of halo [i] *)
Definition entry (c : col) (j i : nat) : option R :=
  match c with
  | Col1 l => nth_error l i
  | Col2 l => match nth_error l i with Some r => nth_error r j | None => None end
  end.
(** the unit conversion of a raw field *)
Definition conv (ct : catalog) (key : string) (x : R) : R :=
  match dget (ct_tr ct) key with Some f => f x (ct_hub ct) | None => x end.

(** the datasets a snapshot should get: (raw field, number of the value, entry) *)
Definition numbered {A} (l : list A) : list (nat * A) := combine (seq 0 (length l)) l.
Definition out_basic (bf : fields) : list (string * nat * fspec) :=
  flat_map (fun ks => map (fun js => (fst ks, fst js, snd js)) (numbered (snd ks))) bf.
Definition out_other (of : fields) : list (string * nat * fspec) :=
  flat_map (fun ks => map (fun js => (fst ks, fst js, snd js))
    (filter (fun js => match snd ks with [_] => true | _ => negb (String.prefix "none" (fs_name (snd js))) end)
       (numbered (snd ks)))) of.
Definition out_fields (bf of : fields) : list (string * nat * fspec) := out_basic bf ++ out_other of.
Definition out_names (bf of : fields) : list string := map (fun kjs => fs_name (snd kjs)) (out_fields bf of).

(** field tables: every raw field has an entry, new names do not clash, mass is there *)
Definition fields_ok (bf of : fields) : Prop :=
  NoDup (out_names bf of) /\ ~ In "mass_cuts" (out_names bf of) /\
  In "mass" (map (fun kjs => fs_name (snd kjs)) (out_basic bf)) /\
  forall key specs, In (key, specs) (bf ++ of) -> specs <> [].
(** a raw catalogue of [n] halos with the columns these fields need *)
Definition catalogue_ok (bf of : fields) (sub : dict col) (n : nat) : Prop :=
  n = 0 \/
  forall key specs, In (key, specs) (bf ++ of) -> exists c, dget sub key = Some c /\ rows c = n /\
    match specs with
    | [_] => exists l, c = Col1 l
    | _ => exists l, c = Col2 l /\ Forall (fun r => length specs <= length r) l
    end.

Definition group_of (w : world) (s : Z) : option group :=
  match w_file w with Some f => zget (f_groups f) s | None => None end.

(** [v] holds value [j] of raw field [key], converted, in the order [p] *)
Definition column_is (ct : catalog) (sub : dict col) (p : list nat) (key : string) (j : nat) (v : col) : Prop :=
  rows v = length p /\
  forall r i, nth_error p r = Some i ->
    exists c x, dget sub key = Some c /\ entry c j i = Some x /\ entry v 0 r = Some (conv ct key x).

(** the group is the catalogue [sub] of [n] halos: its datasets are exactly the expected
    ones, all of them list the halos in the same order [p], heaviest first *)
Definition holds (ct : catalog) (bf of : fields) (sub : dict col) (n : nat) (g : group) : Prop :=
  exists p, Permutation p (seq 0 n) /\
    map d_name (g_data g) = out_names bf of /\
    (forall key j sp, In (key, j, sp) (out_fields bf of) ->
       exists d, In d (g_data g) /\ d_name d = fs_name sp /\ d_units d = Some (fs_units sp) /\
         d_h d = Some (fs_h sp) /\ column_is ct sub p key j (d_vals d)) /\
    (forall d, In d (g_data g) -> d_name d = "mass" ->
       exists v, d_vals d = Col1 v /\ StronglySorted (fun a b => (b <= a)%R) v).

(** the masses of a group *)
Definition masses (g : group) : list R :=
  match find (fun d => String.eqb (d_name d) "mass") (g_data g) with
  | Some d => match d_vals d with Col1 v => v | Col2 _ => [] end
  | None => []
  end.
(** the stored index of a cut is the number of halos at or above it, and those are the
    first rows *)
Definition cut_ok (v : list R) (m : R) (k : nat) : Prop :=
  k = length (filter (fun x => rleb m x) v) /\
  Forall (fun x => (m <= x)%R) (firstn k v) /\ Forall (fun x => (x < m)%R) (skipn k v).

(** everything a call needs: usable field tables, loadable catalogues for the snapshots
    it has to do and, when it adds to a file, that file's attributes *)
Definition runnable (ct : catalog) (a : fargs) (w : world) (of : fields) : Prop :=
  other_fields ct a w = Ok of /\ fields_ok (ct_basic ct) of /\ NoDup (dkeys (ct_tr ct)) /\ NoDup (ct_snaps ct) /\
  (forall s, In s (todo ct a w) ->
     exists sub n, ct_load ct s (dkeys (dmerge (ct_basic ct) of)) = Ok (sub, n) /\ catalogue_ok (ct_basic ct) of sub n) /\
  (is_new w a = true \/ exists f t k, w_file w = Some f /\ f_table f = Some t /\ f_number f = Some k).

(** the stored mass cuts are right *)
Definition cuts_stored (g : group) : Prop :=
  exists cuts, g_cuts g = Some cuts /\ map fst cuts = cut_masses /\
    Forall (fun c => cut_ok (masses g) (fst c) (snd c)) cuts.

(** the snapshot table of the file *)
Definition table (w : world) : list meta :=
  match w_file w with Some f => match f_table f with Some t => t | None => [] end | None => [] end.

(** ** Histories *)
(** the metadata of an instance has one row for each of its snapshots, in order *)
Definition own_rows (ct : catalog) : Prop :=
  StronglySorted (fun a b => (m_index a < m_index b)%Z) (ct_meta ct) /\
  forall s, In s (ct_snaps ct) <-> In s (map m_index (ct_meta ct)).
Fixpoint zset {A} (l : list (Z * A)) (s : Z) (v : A) : list (Z * A) :=
  match l with [] => [(s, v)] | (k, x) :: r => if Z.eqb k s then (k, v) :: r else (k, x) :: zset r s v end.
(** what a call should do: it (re)makes the snapshots it names, except those already
    there unless it overwrites; every snapshot keeps the instance that made it last *)
Definition spec_step (l : list (Z * catalog)) (c : catalog * fargs) : list (Z * catalog) :=
  let base := if a_remake (snd c) then [] else l in
  fold_left (fun acc s => match zget base s with
                          | Some _ => if a_overwrite (snd c) then zset acc s (fst c) else acc
                          | None => zset acc s (fst c)
                          end) (ct_snaps (fst c)) base.
Definition spec_run (cs : list (catalog * fargs)) : list (Z * catalog) := fold_left spec_step cs [].
Definition run (asort : list R -> list nat) (cs : list (catalog * fargs)) (w : world) : world :=
  fold_left (fun w c => fst (format asort (fst c) (snd c) w)) cs w.
Fixpoint good_history (asort : list R -> list nat) (cs : list (catalog * fargs)) (w : world) : Prop :=
  match cs with
  | [] => True
  | c :: r => own_rows (fst c) /\ ct_snaps (fst c) <> [] /\ (exists of, runnable (fst c) (snd c) w of) /\
              good_history asort r (fst (format asort (fst c) (snd c) w))
  end.

(** ** Chunked catalogues *)
(** the rows of a column *)
Definition rows_of (c : col) : list (list R) := match c with Col1 l => map (fun x => [x]) l | Col2 l => l end.
Definition flat (c : col) : bool := match c with Col1 _ => true | Col2 _ => false end.
Definition here (l : list chunk) : nat := fold_right (fun f n => ch_here f + n) 0 l.
(** the files of one snapshot: the first one announces the total and has all the fields;
    a file with halos has all of them, one row per halo, of the same shape *)
Definition split_ok (f0 : chunk) (l : list chunk) (fs : list string) : Prop :=
  In f0 l /\ ch_total f0 = here l /\ ch_total f0 <> 0 /\ NoDup fs /\
  forall k, In k fs -> exists c0, dget (ch_data f0) k = Some c0 /\
    forall f, In f l -> ch_here f <> 0 ->
      exists c, dget (ch_data f) k = Some c /\ rows c = ch_here f /\ flat c = flat c0.
(** the rows of a field over all files *)
Definition all_rows (l : list chunk) (k : string) : list (list R) :=
  flat_map (fun f => if ch_here f =? 0 then [] else match dget (ch_data f) k with Some c => rows_of c | None => [] end) l.
