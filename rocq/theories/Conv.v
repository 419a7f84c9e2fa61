(** Proofs about [convolve]. *)
From Verif Require Import Util Rat Val Arr GridModel GridModel2 GridSpec GridNew GridEx GridCat GridSpecFunc GridPad GridCollapse GridFT GridOps GridSpec2 GridPower ConvSpec.
Local Open Scope nat_scope.

Section Conv.
Context {A : Alg}.
Add Ring ar_conv : (v_rt A).
Notation grid := (grid A).

(** ** the sums as recursions over the axes *)
Fixpoint kl (c : nat -> bool) (s1 s2 ix : list nat) : list (list nat) :=
  match s1, s2, ix with
  | n1 :: s1', n2 :: s2', i :: ix' =>
      flat_map (fun k => map (cons k) (kl (fun i => c (S i)) s1' s2' ix'))
        (if c 0 then seq 0 n2 else if n2 =? 1 then [0] else [i + (Nat.max n1 n2 - n1) / 2])
  | _, _, _ => [[]]
  end.
Fixpoint cc (c : nat -> bool) (s1 s2 ix kx : list nat) : option (list nat) :=
  match s1, s2, ix, kx with
  | n1 :: s1', n2 :: s2', i :: ix', k :: kx' =>
      match (if c 0 then conv_src n1 n2 i k else Some (if n1 =? 1 then 0 else i)), cc (fun i => c (S i)) s1' s2' ix' kx' with
      | Some j, Some r => Some (j :: r) | _, _ => None end
  | _, _, _, _ => Some []
  end.

Lemma fold_seq_S {X} (f : nat -> X -> X) x n : fold_right f x (seq 1 n) = fold_right (fun i => f (S i)) x (seq 0 n).
Proof. rewrite <- seq_shift. generalize (seq 0 n). induction l; simpl; congruence. Qed.
Lemma fold_ext {X Y} (f g : X -> Y -> Y) x l : (forall a y, f a y = g a y) -> fold_right f x l = fold_right g x l.
Proof. intros H. induction l; simpl; auto. rewrite IHl. auto. Qed.

Lemma kidx_kl s1 s2 cax ix : length s2 = length s1 -> length ix = length s1 ->
  conv_kidx s1 s2 cax ix = kl (fun i => mem_nat i cax) s1 s2 ix.
Proof.
  unfold conv_kidx. set (c := fun i => mem_nat i cax). change (fun (i : nat) (acc : list (list nat)) => _) with
    (fun (i : nat) (acc : list (list nat)) => flat_map (fun k => map (cons k) acc)
      (if c i then seq 0 (nth i s2 0) else if nth i s2 0 =? 1 then [0] else [nth i ix 0 + (Nat.max (nth i s1 0) (nth i s2 0) - nth i s1 0) / 2])).
  clearbody c. revert c s2 ix. induction s1 as [|n1 s1 IH]; intros c [|n2 s2] [|i ix] L2 Li; cbn [length] in *; try discriminate; auto.
  cbn [seq fold_right]. rewrite fold_seq_S. cbn [nth kl]. rewrite <- (IH (fun i => c (S i)) s2 ix) by lia. reflexivity.
Qed.
Lemma cell_cc s1 s2 cax ix kx : length s2 = length s1 -> length ix = length s1 -> length kx = length s1 ->
  conv_cell s1 s2 cax ix kx = cc (fun i => mem_nat i cax) s1 s2 ix kx.
Proof.
  unfold conv_cell. set (c := fun i => mem_nat i cax). change (fun (i : nat) (acc : option (list nat)) => _) with
    (fun (i : nat) (acc : option (list nat)) =>
       match (if c i then conv_src (nth i s1 0) (nth i s2 0) (nth i ix 0) (nth i kx 0) else Some (if nth i s1 0 =? 1 then 0 else nth i ix 0)), acc with
       | Some j, Some r => Some (j :: r) | _, _ => None end).
  clearbody c. revert c s2 ix kx. induction s1 as [|n1 s1 IH]; intros c [|n2 s2] [|i ix] [|k kx] L2 Li Lk; cbn [length] in *; try discriminate; auto.
  cbn [seq fold_right]. rewrite fold_seq_S. cbn [nth cc]. rewrite <- (IH (fun i => c (S i)) s2 ix kx) by lia. reflexivity.
Qed.
Lemma kl_len c s1 s2 ix kx : length s2 = length s1 -> length ix = length s1 -> In kx (kl c s1 s2 ix) -> length kx = length s1.
Proof.
  revert c s2 ix kx. induction s1 as [|n1 s1 IH]; intros c [|n2 s2] [|i ix] kx L2 Li H; simpl in *; try discriminate.
  - destruct H as [<-|[]]. reflexivity.
  - apply in_flat_map in H as (k & _ & H). apply in_map_iff in H as (kx' & <- & H). simpl. f_equal. apply (IH (fun i => c (S i)) s2 ix); auto; lia.
Qed.

Lemma vsum_flat {X Y} (f : Y -> A) (h : X -> list Y) l : vsum (map f (flat_map h l)) = vsum (map (fun x => vsum (map f (h x))) l).
Proof. induction l as [|x l IH]; simpl; auto. rewrite map_app, vsum_app, IH, vsum_cons. reflexivity. Qed.
Lemma vsum_zero {X} (f : X -> A) l : (forall x, In x l -> f x = v0) -> vsum (map f l) = v0.
Proof. induction l as [|x l IH]; intros H; cbn [map]; [reflexivity|]. rewrite vsum_cons, (H x) by (left; auto). rewrite IH by (intros y Hy; apply H; right; exact Hy). ring. Qed.
Lemma vsum_ext {X} (f h : X -> A) l : (forall x, In x l -> f x = h x) -> vsum (map f l) = vsum (map h l).
Proof. intros H. f_equal. apply map_ext_in. exact H. Qed.
Lemma vsum_one {X} (f : X -> A) (eqb : X -> X -> bool) l t : (forall x y, eqb x y = true <-> x = y) -> NoDup l -> In t l ->
  vsum (map (fun k => if eqb k t then f k else v0) l) = f t.
Proof.
  intros E N. induction l as [|x l IH]; intros H; [destruct H|]. inversion N; subst. cbn [map]. rewrite vsum_cons. destruct H as [->|H].
  - rewrite (proj2 (E t t)) by auto. rewrite vsum_zero; [ring|]. intros y Hy. destruct (eqb y t) eqn:Q; auto. apply E in Q. subst. tauto.
  - destruct (eqb x t) eqn:Q; [apply E in Q; subst; tauto|]. rewrite IH by auto. ring.
Qed.

Definition opt {X} (o : option X) (f : X -> A) : A := match o with Some x => f x | None => v0 end.

(** the flags: an axis is convolved when it is named and the kernel has more than one cell *)
Lemma conv_sum : forall (s1 s2 ix : list nat) act N q p (G : list nat -> list nat -> A),
  length s2 = length s1 -> inb s1 ix = true -> p < N -> (q = N \/ q = 1 \/ N = 1) ->
  act (length s1) = false -> (forall n, In n s1 -> n <> 1) -> (forall n, In n s2 -> 0 < n) ->
  (forall i, i < length s1 -> act i = false -> nth i s2 0 = nth i s1 0 \/ nth i s2 0 = 1) ->
  let c i := (act i && negb (nth i (s1 ++ [N]) 0 =? 1) && negb (nth i (s2 ++ [q]) 0 =? 1))%bool in
  vsum (map (fun kx => opt (cc c (s1 ++ [N]) (s2 ++ [q]) (ix ++ [p]) kx) (fun jx => G jx kx)) (kl c (s1 ++ [N]) (s2 ++ [q]) (ix ++ [p]))) =
  vsum (map (fun kx => opt (lag act s2 ix kx) (fun lx => if inb s1 lx then G (lx ++ [p]) (kx ++ [if q =? 1 then 0 else p + (Nat.max N q - N) / 2]) else v0)) (idxs s2)).
Proof.
  induction s1 as [|n1 s1 IH]; intros [|n2 s2] [|i ix] act N q p G L Hi Hp Hq Ha H1 H2 Hf; try discriminate.
  - intros c. cbn [app kl cc length] in *. assert (Ec : c 0 = false) by (unfold c; rewrite Ha; reflexivity). rewrite Ec.
    replace (if N =? 1 then 0 else p) with p by (destruct (Nat.eqb_spec N 1); lia).
    destruct (Nat.eqb_spec q 1); reflexivity.
  - intros c. cbn [app kl length inb] in *. apply andb_true_iff in Hi as [Hi Hix]. apply Nat.ltb_lt in Hi.
    assert (N1 : n1 <> 1) by (apply H1; left; auto). assert (N2 : 0 < n2) by (apply H2; left; auto).
    set (c' := fun i => c (S i)). set (act' := fun i => act (S i)).
    assert (IH' : forall G, vsum (map (fun kx => opt (cc c' (s1 ++ [N]) (s2 ++ [q]) (ix ++ [p]) kx) (fun jx => G jx kx)) (kl c' (s1 ++ [N]) (s2 ++ [q]) (ix ++ [p]))) =
       vsum (map (fun kx => opt (lag act' s2 ix kx) (fun lx => if inb s1 lx then G (lx ++ [p]) (kx ++ [if q =? 1 then 0 else p + (Nat.max N q - N) / 2]) else v0)) (idxs s2))).
    { intros G'. apply (IH s2 ix act' N q p G'); auto.
      - intros n Hn. apply H1. right; auto.
      - intros n Hn. apply H2. right; auto.
      - intros j Hj Hja. apply (Hf (S j)); auto. lia. }
    clear IH.
    assert (R : forall ks, vsum (map (fun kx => opt (cc c ((n1 :: s1) ++ [N]) ((n2 :: s2) ++ [q]) ((i :: ix) ++ [p]) kx) (fun jx => G jx kx))
                (flat_map (fun k => map (cons k) (kl c' (s1 ++ [N]) (s2 ++ [q]) (ix ++ [p]))) ks)) =
       vsum (map (fun k => opt (if c 0 then conv_src n1 n2 i k else Some i) (fun j =>
          vsum (map (fun kx => opt (lag act' s2 ix kx) (fun lx => if inb s1 lx then G (j :: lx ++ [p]) (k :: kx ++ [if q =? 1 then 0 else p + (Nat.max N q - N) / 2]) else v0)) (idxs s2)))) ks)).
    { intros ks. rewrite vsum_flat. apply vsum_ext. intros k _. rewrite map_map. cbn [app cc]. fold c'.
      replace (if n1 =? 1 then 0 else i) with i by (destruct (Nat.eqb_spec n1 1); lia).
      destruct (if c 0 then conv_src n1 n2 i k else Some i) as [j|]; cbn [opt].
      - rewrite <- (IH' (fun jx kx => G (j :: jx) (k :: kx))). apply vsum_ext. intros kx _.
        destruct (cc c' _ _ _ kx); reflexivity.
      - apply vsum_zero. auto. }
    cbn [app] in R. fold c'. rewrite R. clear R.
    cbn [idxs]. rewrite vsum_flat.
    set (rhs := fun k j => vsum (map (fun kx => opt (lag act' s2 ix kx) (fun lx => if inb s1 lx then G (j :: lx ++ [p]) (k :: kx ++ [if q =? 1 then 0 else p + (Nat.max N q - N) / 2]) else v0)) (idxs s2))).
    assert (R : forall k, vsum (map (fun kx => opt (lag act (n2 :: s2) (i :: ix) kx) (fun lx => if inb (n1 :: s1) lx then G (lx ++ [p]) (kx ++ [if q =? 1 then 0 else p + (Nat.max N q - N) / 2]) else v0)) (map (cons k) (idxs s2))) =
       opt (if act 0 then (if (k <=? i + (n2 - 1) / 2) then Some (i + (n2 - 1) / 2 - k) else None) else (if k =? (if n2 =? 1 then 0 else i) then Some i else None))
           (fun j => if j <? n1 then rhs k j else v0)).
    { intros k. rewrite map_map. cbn [lag]. fold act'.
      set (o := if act 0 then (if (k <=? i + (n2 - 1) / 2) then Some (i + (n2 - 1) / 2 - k) else None) else (if k =? (if n2 =? 1 then 0 else i) then Some i else None)).
      assert (Eo : forall r, (if act 0 then (if (k <=? i + (n2 - 1) / 2) then Some (i + (n2 - 1) / 2 - k :: r) else None) else (if k =? (if n2 =? 1 then 0 else i) then Some (i :: r) else None)) = option_map (fun j => j :: r) o).
      { intros r. unfold o. destruct (act 0); [destruct (k <=? _)|destruct (k =? _)]; reflexivity. }
      destruct o as [j|]; cbn [opt option_map] in *.
      - destruct (j <? n1) eqn:Ej.
        + apply vsum_ext. intros kx _. destruct (lag act' s2 ix kx) as [r|]; auto. rewrite Eo. cbn [opt inb app]. rewrite Ej. reflexivity.
        + apply vsum_zero. intros kx _. destruct (lag act' s2 ix kx) as [r|]; auto. rewrite Eo. cbn [opt inb app]. rewrite Ej. reflexivity.
      - apply vsum_zero. intros kx _. destruct (lag act' s2 ix kx) as [r|]; auto. rewrite Eo. reflexivity. }
    rewrite (vsum_ext _ _ _ (fun k _ => R k)). clear R. fold rhs.
    change (vsum (map (fun k => opt (if c 0 then conv_src n1 n2 i k else Some i) (fun j => rhs k j)) (if c 0 then seq 0 n2 else if n2 =? 1 then [0] else [i + (Nat.max n1 n2 - n1) / 2])) =
       vsum (map (fun k => opt (if act 0 then if k <=? i + (n2 - 1) / 2 then Some (i + (n2 - 1) / 2 - k) else None else if k =? (if n2 =? 1 then 0 else i) then Some i else None) (fun j => if j <? n1 then rhs k j else v0)) (seq 0 n2))).
    assert (Ec : c 0 = (act 0 && negb (n2 =? 1))%bool) by (unfold c; cbn [app nth]; destruct (Nat.eqb_spec n1 1); [tauto|]; cbn [negb]; rewrite andb_true_r; reflexivity).
    rewrite Ec. destruct (Nat.eqb_spec n2 1) as [->|M2]; cbn [negb].
    + rewrite andb_false_r. cbn [seq map opt]. change ((1 - 1) / 2) with 0. rewrite Nat.add_0_r, Nat.sub_0_r. cbn [Nat.leb Nat.eqb].
      destruct (act 0); cbn [opt]; (replace (i <? n1) with true by (symmetry; apply Nat.ltb_lt; auto)); reflexivity.
    + rewrite andb_true_r. destruct (act 0) eqn:Ea.
      * apply vsum_ext. intros k _. unfold conv_src. destruct (k <=? i + (n2 - 1) / 2); cbn [andb opt]; auto.
        destruct (i + (n2 - 1) / 2 - k <? n1); reflexivity.
      * destruct (Hf 0 ltac:(lia) Ea) as [E|E]; cbn [nth] in E; [|tauto]. subst n2. rewrite Nat.max_id, Nat.sub_diag. change (0 / 2) with 0. rewrite Nat.add_0_r.
        cbn [map opt]. symmetry.
        rewrite (vsum_ext _ (fun k => if k =? i then (fun k => rhs k i) k else v0)).
        -- rewrite (vsum_one (fun k => rhs k i) Nat.eqb _ i Nat.eqb_eq (seq_NoDup _ _)) by (apply in_seq; lia). unfold vsum; cbn [fold_right]. ring.
        -- intros k _. destruct (k =? i); cbn [opt]; auto. replace (i <? n1) with true by (symmetry; apply Nat.ltb_lt; auto). reflexivity.
Qed.

(** ** a kernel with fewer axes than the map *)
Lemma lag_ones act m : forall jx, length jx = m -> lag act (repeat 1 m) jx (repeat 0 m) = Some jx.
Proof.
  revert act. induction m as [|m IH]; intros act [|j jx] L; try discriminate; auto. cbn [repeat lag]. rewrite IH by (simpl in L; lia).
  change ((1 - 1) / 2) with 0. rewrite Nat.add_0_r, Nat.sub_0_r. destruct (act 0); reflexivity.
Qed.
Lemma lag_trail m : forall ns act jx kx, length kx = length ns -> length jx = length ns + m ->
  lag act (ns ++ repeat 1 m) jx (kx ++ repeat 0 m) = lag act ns jx kx.
Proof.
  induction ns as [|n ns IH]; intros act jx [|k kx] Lk Lj; try discriminate.
  - cbn [app]. rewrite lag_ones by auto. destruct jx; reflexivity.
  - destruct jx as [|j jx]; [discriminate|]. cbn [app lag]. rewrite IH by (simpl in *; lia). reflexivity.
Qed.
Lemma idxs_ones m : idxs (repeat 1 m) = [repeat 0 m].
Proof. induction m as [|m IH]; auto. cbn [repeat idxs seq flat_map]. rewrite IH. reflexivity. Qed.
Lemma idxs_trail ns m : idxs (ns ++ repeat 1 m) = map (fun kx => kx ++ repeat 0 m) (idxs ns).
Proof. rewrite idxs_app, idxs_ones. generalize (idxs ns). induction l as [|x l IH]; [reflexivity|]. cbn [flat_map map app] in *. rewrite IH. reflexivity. Qed.
Lemma flat_trail ns q m : forall kx r, length kx = length ns -> flat (ns ++ repeat 1 m ++ [q]) (kx ++ repeat 0 m ++ [r]) = flat (ns ++ [q]) (kx ++ [r]).
Proof.
  induction ns as [|n ns IH]; intros [|k kx] r L; try discriminate.
  - cbn [app]. induction m as [|m IHm]; [reflexivity|]. cbn [repeat app flat]. rewrite IHm. reflexivity.
  - cbn [app flat]. rewrite IH by (simpl in L; lia). f_equal. f_equal. rewrite !size_app, size_ones. lia.
Qed.
Lemma inb_trail ns q m kx r : length kx = length ns -> inb (ns ++ repeat 1 m ++ [q]) (kx ++ repeat 0 m ++ [r]) = inb (ns ++ [q]) (kx ++ [r]).
Proof. intros L. rewrite !inb_app by (rewrite ?repeat_length; auto). rewrite inb_ones. reflexivity. Qed.

Definition kp (N q p : nat) : nat := if q =? 1 then 0 else p + (Nat.max N q - N) / 2.
Definition kval (act : nat -> bool) (s1 ns : list nat) (N q : nat) (d k : arr A) (jx : list nat) (p : nat) : A :=
  vsum (map (fun kx => opt (lag act ns jx kx) (fun lx => if inb s1 lx then (getd v0 d (lx ++ [p]) * getd v0 k (kx ++ [kp N q p]))%V else v0)) (idxs ns)).

Lemma fft_val s1 N ns q (d k : arr A) axn : shape d = s1 ++ [N] -> shape k = ns ++ [q] -> length ns <= length s1 ->
  (forall n, In n s1 -> n <> 1) -> (forall n, In n ns -> 0 < n) -> (q = N \/ q = 1 \/ N = 1) ->
  axn <> [] -> NoDup axn -> (forall a, In a axn -> a < length s1) ->
  (forall i, i < length ns -> ~ In i axn -> nth i ns 0 = nth i s1 0 \/ nth i ns 0 = 1) ->
  exists d2, fftconvolve_same d (mkArr (removelast (shape k) ++ repeat 1 (length (shape d) - length (shape k)) ++ [last (shape k) 0]) (dat k)) axn = Ok d2 /\
    awf d2 /\ shape d2 = s1 ++ [N] /\
    forall jx p, inb s1 jx = true -> p < N -> getd v0 d2 (jx ++ [p]) = kval (fun i => mem_nat i axn) s1 ns N q d k jx p.
Proof.
  intros Sd Sk Ln H1 H2 Hq Hne Nd Hlt Hf. rewrite Sk, removelast_last, last_last. rewrite Sd, !app_length. cbn [length].
  set (m := length s1 + 1 - (length ns + 1)). assert (Em : length s1 = length ns + m) by lia.
  set (s2 := ns ++ repeat 1 m). assert (L2 : length s2 = length s1) by (unfold s2; rewrite app_length, repeat_length; lia).
  rewrite app_assoc. fold s2. set (k' := mkArr (s2 ++ [q]) (dat k)).
  assert (N2 : forall i, length ns <= i < length s1 -> nth i s2 0 = 1).
  { intros i Hi. unfold s2. rewrite app_nth2 by lia. rewrite (nth_indep _ 0 1) by (rewrite repeat_length; lia). apply nth_repeat. }
  assert (H2' : forall n, In n s2 -> 0 < n).
  { intros n Hn. unfold s2 in Hn. apply in_app_or in Hn as [Hn|Hn]; auto. apply repeat_spec in Hn. lia. }
  set (act := fun i => mem_nat i axn).
  assert (Hf' : forall i, i < length s1 -> act i = false -> nth i s2 0 = nth i s1 0 \/ nth i s2 0 = 1).
  { intros i Hi Ha. apply mem_nat_false in Ha. destruct (Nat.lt_ge_cases i (length ns)) as [L|L].
    - unfold s2. rewrite app_nth1 by auto. apply Hf; auto.
    - right. apply N2. lia. }
  assert (Ha : act (length s1) = false).
  { apply mem_nat_false. intros Q. apply Hlt in Q. lia. }
  set (c := fun i => (act i && negb (nth i (s1 ++ [N]) 0 =? 1) && negb (nth i (s2 ++ [q]) 0 =? 1))%bool).
  set (cax := conv_axes (s1 ++ [N]) (s2 ++ [q]) axn).
  assert (Ec : forall i, mem_nat i cax = c i).
  { intros i. apply eq_true_iff_eq. unfold cax, conv_axes, c, act. rewrite mem_nat_spec, filter_In, <- andb_assoc, (andb_true_iff (mem_nat i axn)), mem_nat_spec. reflexivity. }
  unfold fftconvolve_same. cbn [shape k']. rewrite Sd. rewrite !app_length, L2, Nat.eqb_refl. cbn [negb].
  destruct (Nat.eqb_spec (length axn) 0) as [Z|_]; [destruct axn; [tauto|discriminate]|].
  rewrite (proj2 (nodupb_spec axn) Nd). cbn [negb]. fold cax.
  match goal with |- context[negb (forallb ?f ?l)] => replace (forallb f l) with true end.
  2:{ symmetry. apply forallb_forall. intros i Hi. apply in_seq in Hi. cbn [length] in Hi. rewrite Ec. unfold c.
      destruct (Nat.eq_dec i (length s1)) as [->|Ni].
      - rewrite Ha. rewrite !app_nth2 by lia. rewrite L2, Nat.sub_diag. cbn [nth andb orb].
        destruct Hq as [Hq | [Hq | Hq]]; rewrite Hq; rewrite ?Nat.eqb_refl, ?orb_true_r; reflexivity.
      - rewrite !app_nth1 by lia. destruct (act i) eqn:Ea.
        + cbn [andb]. destruct (Nat.eqb_spec (nth i s1 0) 1), (Nat.eqb_spec (nth i s2 0) 1); cbn [negb andb orb]; rewrite ?orb_true_r; reflexivity.
        + cbn [andb orb]. destruct (Hf' i ltac:(lia) Ea) as [E|E]; rewrite E, Nat.eqb_refl, ?orb_true_r; reflexivity. }
  cbn [negb]. eexists. split; [reflexivity|]. split; [apply tab_wf|]. split; [reflexivity|].
  intros jx p Hj Hp. pose proof (inb_length _ _ Hj) as Lj.
  rewrite getd_tab by (rewrite inb_snoc by auto; rewrite Hj; apply Nat.ltb_lt in Hp; rewrite Hp; reflexivity).
  rewrite kidx_kl by (rewrite !app_length; simpl; lia).
  assert (X : forall s1 s2 ix (c c' : nat -> bool), (forall i, c i = c' i) -> kl c s1 s2 ix = kl c' s1 s2 ix).
  { clear. induction s1 as [|n1 s1 IH]; intros [|n2 s2] [|i ix] c c' E; auto. cbn [kl]. rewrite E, (IH s2 ix (fun i => c (S i)) (fun i => c' (S i))); auto. }
  assert (Y : forall s1 s2 ix kx (c c' : nat -> bool), (forall i, c i = c' i) -> cc c s1 s2 ix kx = cc c' s1 s2 ix kx).
  { clear. induction s1 as [|n1 s1 IH]; intros [|n2 s2] [|i ix] [|k kx] c c' E; auto. cbn [cc]. rewrite E, (IH s2 ix kx (fun i => c (S i)) (fun i => c' (S i))); auto. }
  rewrite (X _ _ _ _ c Ec).
  rewrite (vsum_ext _ (fun kx => opt (cc c (s1 ++ [N]) (s2 ++ [q]) (jx ++ [p]) kx) (fun lx => (getd v0 d lx * getd v0 k' kx)%V))).
  2:{ intros kx Hk. apply kl_len in Hk; [|rewrite !app_length; simpl; lia|rewrite !app_length; simpl; lia].
      rewrite cell_cc by (rewrite ?app_length in *; simpl in *; lia). rewrite (Y _ _ _ _ _ c Ec). reflexivity. }
  etransitivity; [exact (conv_sum s1 s2 jx act N q p (fun lx kx => (getd v0 d lx * getd v0 k' kx)%V) L2 Hj Hp Hq Ha H1 H2' Hf')|].
  unfold kval, s2. rewrite idxs_trail, map_map. apply vsum_ext. intros kx Hk. apply in_idxs, inb_length in Hk.
  rewrite lag_trail by lia. destruct (lag act ns jx kx) as [lx|]; auto. cbn [opt]. destruct (inb s1 lx); auto. f_equal.
  unfold kp, getd, get, k'. cbn [shape dat]. unfold s2. rewrite Sk, <- !app_assoc, inb_trail, flat_trail by auto. reflexivity.
Qed.

(** ** zero padding *)
Lemma shifted_addw P jx : Forall (fun z => (0 <= z)%Z) P -> length jx = length P -> shifted P jx (addw jx (wpos P)) = true.
Proof.
  intros F. revert jx. induction F as [|z P Hz F IH]; intros [|j jx] L; try discriminate; auto.
  change (((Z.of_nat (j + Z.to_nat z) =? Z.of_nat j + z)%Z && shifted P jx (addw jx (wpos P)))%bool = true). rewrite (IH jx) by (simpl in L; lia). rewrite andb_true_r. apply Z.eqb_eq. lia.
Qed.
Lemma shifted_unique P jx lx ix : shifted P jx ix = true -> shifted P lx ix = true -> jx = lx.
Proof.
  revert jx lx ix. induction P as [|z P IH]; intros [|j jx] [|l lx] [|i ix] H1 H2; try discriminate; auto.
  cbn [shifted] in *. apply andb_true_iff in H1 as [A1 B1], H2 as [A2 B2]. apply Z.eqb_eq in A1, A2. f_equal; [lia|eauto].
Qed.
(** lags of shifted cells *)
Lemma lag_shift : forall ns act P jx kx, Forall (fun z => (0 <= z)%Z) P -> length jx = length P -> length kx = length ns -> length ns <= length P ->
  (forall i, act i = false -> nth i P 0%Z = 0%Z) ->
  match lag act ns jx kx with
  | Some lx => lag act ns (addw jx (wpos P)) kx = Some (addw lx (wpos P)) /\ length lx = length P
  | None => match lag act ns (addw jx (wpos P)) kx with
            | Some lx' => forall lx, shifted P lx lx' = false
            | None => True end
  end.
Proof.
  induction ns as [|n ns IH]; intros act P jx kx F Lj Lk Ln Hact.
  - destruct kx; [|discriminate]. cbn [lag]. auto.
  - destruct kx as [|k kx]; [discriminate|]. destruct P as [|z P]; [simpl in Ln; lia|]. destruct jx as [|j jx]; [discriminate|].
    inversion F as [|? ? Hz F']; subst. change (addw (j :: jx) (wpos (z :: P))) with ((j + Z.to_nat z) :: addw jx (wpos P)).
    specialize (IH (fun i => act (S i)) P jx kx F' ltac:(simpl in Lj; lia) ltac:(simpl in Lk; lia) ltac:(simpl in Ln; lia) (fun i H => Hact (S i) H)).
    cbn [lag]. destruct (lag (fun i => act (S i)) ns jx kx) as [r|].
    + destruct IH as [IH Lr]. rewrite IH. destruct (act 0) eqn:E0.
      * set (h := (n - 1) / 2). destruct (Nat.leb_spec k (j + h)) as [L|L].
        -- replace (k <=? j + Z.to_nat z + h) with true by (symmetry; apply Nat.leb_le; lia). split; [|simpl; lia].
           match goal with |- _ = Some (addw (?a :: r) _) => change (addw (a :: r) (wpos (z :: P))) with ((a + Z.to_nat z) :: addw r (wpos P)) end. f_equal. f_equal. lia.
        -- destruct (Nat.leb_spec k (j + Z.to_nat z + h)) as [L'|L']; auto. intros [|l lx]; auto. cbn [shifted].
           destruct (shifted P lx _); [|apply andb_false_r]. rewrite andb_true_r. apply Z.eqb_neq. lia.
      * assert (z = 0%Z) by (apply (Hact 0 E0)). subst z. cbn [Z.to_nat]. rewrite Nat.add_0_r.
        destruct (k =? _); auto. split; [|simpl; lia]. change (addw (j :: r) (wpos (0%Z :: P))) with ((j + 0) :: addw r (wpos P)). rewrite Nat.add_0_r. reflexivity.
    + destruct (lag (fun i => act (S i)) ns (addw jx (wpos P)) kx) as [r'|]; auto.
      destruct (act 0); [destruct (k <=? _)|destruct (k =? _)]; auto; intros [|l lx]; auto; cbn [shifted]; rewrite (IH lx); apply andb_false_r.
Qed.

Lemma addw_len jx w : length w = length jx -> length (addw jx w) = length jx.
Proof. intros L. unfold addw. rewrite map_length, combine_length. lia. Qed.
Lemma inb_nth sh ix : inb sh ix = true <-> length ix = length sh /\ forall i, i < length sh -> nth i ix 0 < nth i sh 0.
Proof.
  revert ix. induction sh as [|n sh IH]; intros [|j ix]; simpl; try (split; [discriminate|intros [? ?]; discriminate]).
  - split; auto. intros _. split; auto. intros i H. lia.
  - rewrite andb_true_iff, IH, Nat.ltb_lt. split.
    + intros (H & L & R). split; [lia|]. intros [|i] Hi; auto. apply R. lia.
    + intros (L & R). split; [apply (R 0); lia|]. split; [lia|]. intros i Hi. apply (R (S i)). lia.
Qed.
Lemma addw_nth jx w i : length w = length jx -> i < length jx -> nth i (addw jx w) 0 = nth i jx 0 + nth i w 0.
Proof.
  intros L H. unfold addw. rewrite (nth_map_default _ _ _ (0, 0)) by (rewrite combine_length; lia). rewrite combine_nth by auto. reflexivity.
Qed.
Lemma spread_id {X} (ax : list nat) (l : list X) : length l = length ax -> spread ax l = l.
Proof. destruct l as [|x [|y l]]; simpl; auto. intros <-. reflexivity. Qed.

Lemma kval_pad (g g1 : grid) ax pl d d1 (k : arr A) ns q jx p : let P := pads g ax pl in
  consistent g -> consistent g1 -> g_ndim g1 = g_ndim g -> g_data g = Some d -> g_data g1 = Some d1 ->
  (forall i, (0 <= pad_of ax pl i)%Z) ->
  (forall i, i < g_ndim g -> Z.of_nat (nth i (g_npix g1) 0%nat) = (Z.of_nat (nth i (g_npix g) 0%nat) + 2 * pad_of ax pl i)%Z) ->
  (forall ix k, inb (g_npix g1) ix = true -> k < g_nprop g ->
        (forall jx, inb (g_npix g) jx = true -> shifted P jx ix = true -> getd v0 d1 (ix ++ [k]) = getd v0 d (jx ++ [k])) /\
        ((forall jx, inb (g_npix g) jx = true -> shifted P jx ix = false) -> getd v0 d1 (ix ++ [k]) = v0)) ->
  length ns <= g_ndim g -> inb (g_npix g) jx = true -> p < g_nprop g ->
  inb (g_npix g1) (addw jx (wpos P)) = true /\
  kval (fun i => mem_nat i ax) (g_npix g1) ns (g_nprop g) q d1 k (addw jx (wpos P)) p = kval (fun i => mem_nat i ax) (g_npix g) ns (g_nprop g) q d k jx p.
Proof.
  intros P C C1 Ed Dg Dg1 Pos Sz V Ln Hj Hp.
  assert (LP : length P = g_ndim g) by (unfold P, pads; rewrite map_length, seq_length; auto).
  assert (FP : Forall (fun z => (0 <= z)%Z) P).
  { apply Forall_forall. intros z Hz. unfold P, pads in Hz. apply in_map_iff in Hz as (i & <- & _). auto. }
  assert (NP : forall i, i < g_ndim g -> nth i P 0%Z = pad_of ax pl i).
  { intros i Hi. unfold P, pads. rewrite (nth_map_default _ _ _ 0) by (rewrite seq_length; auto). rewrite seq_nth by auto. reflexivity. }
  assert (LwP : length (wpos P) = g_ndim g) by (unfold wpos; rewrite map_length; auto).
  assert (Lnp : length (g_npix g) = g_ndim g) by (apply co_n; auto).
  assert (Lnp1 : length (g_npix g1) = g_ndim g) by (rewrite <- Ed; apply co_n; auto).
  assert (NwP : forall i, i < g_ndim g -> nth i (wpos P) 0 = Z.to_nat (pad_of ax pl i)).
  { intros i Hi. unfold wpos. rewrite (nth_map_default _ _ _ 0%Z) by lia. rewrite NP by auto. reflexivity. }
  assert (Sh : forall lx, length lx = g_ndim g -> inb (g_npix g) lx = true -> inb (g_npix g1) (addw lx (wpos P)) = true).
  { intros lx Ll Hl. apply inb_nth in Hl as [_ Hl]. apply inb_nth. rewrite addw_len by lia. split; [lia|]. intros i Hi. rewrite addw_nth by lia.
    rewrite NwP by lia. specialize (Hl i ltac:(lia)). specialize (Sz i ltac:(lia)). specialize (Pos i). lia. }
  pose proof (inb_length _ _ Hj) as Lj.
  split; [apply Sh; auto; lia|].
  unfold kval. apply vsum_ext. intros kx Hk. apply in_idxs, inb_length in Hk.
  pose proof (lag_shift ns (fun i => mem_nat i ax) P jx kx FP ltac:(lia) Hk ltac:(lia)) as LS.
  assert (Hact : forall i, mem_nat i ax = false -> nth i P 0%Z = 0%Z).
  { intros i Hi. destruct (Nat.lt_ge_cases i (g_ndim g)) as [L|L]; [|apply nth_overflow; lia]. rewrite NP by auto. unfold pad_of.
    destruct (index_nat i ax) as [j|] eqn:E; auto. apply index_nat_some, nth_error_In in E. apply mem_nat_false in Hi. tauto. }
  specialize (LS Hact). clear Hact.
  destruct (lag _ ns jx kx) as [lx|].
  - destruct LS as [-> Ll]. cbn [opt]. destruct (inb (g_npix g) lx) eqn:El.
    + rewrite Sh by (auto; lia). destruct (V (addw lx (wpos P)) p (Sh lx ltac:(lia) El) Hp) as [V1 _]. rewrite (V1 lx); auto. apply shifted_addw; auto.
    + destruct (inb (g_npix g1) (addw lx (wpos P))) eqn:El1; auto. destruct (V _ p El1 Hp) as [_ V2]. rewrite V2; [ring|].
      intros lx' Hl'. destruct (shifted P lx' _) eqn:Es; auto. exfalso.
      assert (lx = lx') by (exact (shifted_unique P lx lx' _ (shifted_addw P lx FP Ll) Es)). subst. congruence.
  - destruct (lag _ ns (addw jx (wpos P)) kx) as [lx'|]; auto. cbn [opt]. destruct (inb (g_npix g1) lx') eqn:El1; auto.
    destruct (V _ p El1 Hp) as [_ V2]. rewrite V2; [ring|]. auto.
Qed.

(** padding depends on the data only through their shape *)
Lemma pad_data_indep (g h : grid) axz padz val d d2 : g_data g = Some d -> shape d2 = shape d ->
  grid_pad g axz padz val = (h, Ok tt) -> exists d3, grid_pad (with_data g (Some d2)) axz padz val = (with_data h (Some d3), Ok tt).
Proof.
  intros Dg S H. unfold grid_pad in *. change (pad_args (with_data g (Some d2)) axz padz) with (pad_args g axz padz).
  destruct (pad_args g axz padz) as [[axn padl]|]; [|discriminate]. gcbn.
  destruct (existsb _ _); [discriminate|]. 
  change (mapM (pad_axis (with_data g (Some d2)) axn padl) (seq 0 (g_ndim g))) with (mapM (pad_axis g axn padl) (seq 0 (g_ndim g))).
  destruct (mapM _ _) as [ps|]; [|discriminate]. rewrite Dg in H. revert H.
  set (w := map pa_pad ps ++ [0]). set (uw := map pa_unpad ps ++ [0]).
  assert (E : shape (np_unpad uw (np_pad w val d2)) = shape (np_unpad uw (np_pad w val d))) by (cbn [np_unpad np_pad tab shape]; rewrite S; reflexivity).
  rewrite E. gcbn. destruct (list_eq_dec _ _ _); [|discriminate]. intros H. injection H as <-. eexists. reflexivity.
Qed.
Lemma data_with (g : grid) d : consistent g -> floats g -> awf d -> shape d = g_npix g ++ [g_nprop g] -> consistent (with_data g (Some d)) /\ floats (with_data g (Some d)).
Proof. intros [] F W S. split; [constructor; auto; split; auto|exact F]. Qed.

Lemma conv_do_ok (g : grid) (d k : arr A) ns q axn pl : consistent g -> floats g -> g_data g = Some d -> shape k = ns ++ [q] -> length ns <= g_ndim g ->
  (forall n, In n ns -> 0 < n) -> (q = g_nprop g \/ q = 1 \/ g_nprop g = 1) ->
  axn <> [] -> NoDup axn -> (forall a, In a axn -> a < g_ndim g) ->
  (forall i, i < length ns -> ~ In i axn -> nth i ns 0 = nth i (g_npix g) 0 \/ nth i ns 0 = 1) ->
  length pl = length axn -> (forall z, In z pl -> (0 <= z)%Z) -> pads_agree g axn pl ->
  exists d3, convolve_do g (mkArr (removelast (shape k) ++ repeat 1 (length (shape d) - length (shape k)) ++ [last (shape k) 0]) (dat k)) axn pl false = (with_data g (Some d3), Ok tt) /\
    (exists g2, consistent g2 /\ g_npix g2 <> [] /\ convolve_do g (mkArr (removelast (shape k) ++ repeat 1 (length (shape d) - length (shape k)) ++ [last (shape k) 0]) (dat k)) axn pl true = (g2, Raise TypeError) /\
       forall i, i < g_ndim g -> Z.of_nat (nth i (g_npix g2) 0%nat) = (Z.of_nat (nth i (g_npix g) 0%nat) + 2 * pad_of axn pl i)%Z) /\
    awf d3 /\ shape d3 = g_npix g ++ [g_nprop g] /\
    forall jx p, inb (g_npix g) jx = true -> p < g_nprop g -> getd v0 d3 (jx ++ [p]) = kval (fun i => mem_nat i axn) (g_npix g) ns (g_nprop g) q d k jx p.
Proof.
  intros C F Dg Sk Ln H2 Hq Hne Nd Hlt Hf Lp Hpos Ag.
  pose proof (spread_id axn pl Lp) as Es.
  assert (K : pad_call_ok g axn pl) by (unfold pad_call_ok; rewrite Es; auto).
  assert (Pos : forall i, (0 <= pad_of axn pl i)%Z) by (intros; apply pad_of_nonneg; auto).
  destruct (c11_round_trip g axn pl v0 v0 C F K ltac:(rewrite Es; auto) Hpos) as (g1 & E1 & B1).
  destruct (c11_pad g axn pl v0 C F K) as (g1' & E1' & C1 & F1 & Q1 & Q2 & Q3 & Q4 & Q5 & Q6 & Q7 & Q8 & Q9 & Q10 & Q11).
  { rewrite Es; auto. }
  { intros i Hi. rewrite Es. pose proof (ao_n _ _ _ _ _ _ _ _ (co_axis _ C i Hi)). specialize (Pos i). lia. }
  assert (g1' = g1) by congruence. subst g1'. clear E1'. rewrite Es in Q10, Q11. rewrite Dg in Q11.
  destruct (g_data g1) as [d1|] eqn:Dg1; [|tauto].
  destruct (data_ok g d C Dg) as [Wd Sd]. destruct (data_ok g1 d1 C1 Dg1) as [Wd1 Sd1]. rewrite Q1 in Sd1.
  pose proof (co_n _ C) as Lnp. pose proof (co_n _ C1) as Lnp1. rewrite Q3 in Lnp1.
  assert (Two : forall i, i < g_ndim g -> 2 <= nth i (g_npix g) 0) by (intros i Hi; pose proof (ao_n _ _ _ _ _ _ _ _ (co_axis _ C i Hi)); lia).
  assert (Ez : forall i, i < g_ndim g -> pad_of axn pl i <> 0%Z -> In i axn).
  { intros i _. unfold pad_of. destruct (index_nat i axn) as [j|] eqn:E; [|tauto]. intros _. apply index_nat_some, nth_error_In in E. auto. }
  destruct (fft_val (g_npix g1) (g_nprop g) ns q d1 k axn) as (d2 & E2 & W2 & S2 & V2); auto; try lia.
  { intros n Hn. apply In_nth with (d := 0) in Hn as (i & Hi & <-). rewrite Lnp1 in Hi. destruct (Q10 i Hi) as (Q & _). specialize (Two i Hi). specialize (Pos i). lia. }
  { intros a Ha. rewrite Lnp1. auto. }
  { intros i Hi Hn. destruct (Hf i Hi Hn) as [E|E]; auto. left. rewrite E. destruct (Q10 i ltac:(lia)) as (Q & _).
    assert (pad_of axn pl i = 0%Z) by (destruct (Z.eq_dec (pad_of axn pl i) 0); auto; exfalso; apply Hn, Ez; auto; lia). lia. }
  assert (Sh1 : shape d1 = g_npix g1 ++ [g_nprop g1]) by (rewrite Q1; auto).
  assert (L1 : length (shape d1) = length (shape d)) by (rewrite Sd, Sd1, !app_length; simpl; lia).
  rewrite L1 in E2.
  destruct (pad_data_indep g1 g (map Z.of_nat axn) (map Z.opp pl) v0 d1 d2 Dg1 ltac:(congruence) B1) as (d3 & B2).
  destruct (data_with g1 d2 C1 F1 W2 ltac:(rewrite Q1; auto)) as [C2 F2].
  unfold convolve_do. rewrite E1, Dg1. rewrite E2. cbv zeta.
  exists d3. split; [exact B2|]. split.
  { exists (with_data g1 (Some d2)). split; [auto|]. split; [|split; [reflexivity|intros i Hi; apply Q10; auto]]. gcbn. intros Z. rewrite Z in Lnp1. destruct axn as [|a axn]; [tauto|]. specialize (Hlt a (or_introl eq_refl)). simpl in Lnp1. lia. }
  (* values *)
  set (g2 := with_data g1 (Some d2)) in *.
  assert (K2 : pad_call_ok g2 axn (map Z.opp pl)) by (unfold pad_call_ok, g2; gcbn; rewrite spread_opp, map_length, Es, Q3; auto).
  destruct (c11_pad g2 axn (map Z.opp pl) v0 C2 F2 K2) as (h & Eh & Ch & Fh & R1 & R2 & R3 & R4 & R5 & R6 & R7 & R8 & R9 & R10 & R11).
  { rewrite spread_opp, Es. apply (pads_agree_opp g); auto. }
  { intros i Hi. unfold g2 in *; gcbn. rewrite spread_opp, Es, pad_of_opp. change (g_ndim (with_data g1 (Some d2))) with (g_ndim g1) in Hi. rewrite Q3 in Hi. destruct (Q10 i Hi) as (-> & _). specialize (Two i Hi). lia. }
  assert (Eg : h = with_data g (Some d3)) by congruence. subst h. clear Eh.
  destruct (data_ok _ d3 Ch eq_refl) as [W3 S3].
  split; [auto|]. split; [exact S3|]. intros jx p Hj Hp.
  destruct (kval_pad g g1 axn pl d d1 k ns q jx p C C1 Q3 Dg Dg1 Pos) as [Hin Ev]; auto.
  { intros i Hi. apply Q10; auto. }
  rewrite <- Ev, <- V2 by auto.
  change (g_data g2) with (Some d2) in R11. change (g_data (with_data g (Some d3))) with (Some d3) in R11. cbv iota in R11.
  destruct (R11 jx p) as [R _]; auto. { change (p < g_nprop g1). lia. }
  apply R; auto. rewrite spread_opp, Es. replace (pads g2 axn (map Z.opp pl)) with (map Z.opp (pads g axn pl)).
  - pose proof (inb_length _ _ Hj) as Lj. assert (LP : length (pads g axn pl) = length jx) by (unfold pads; rewrite map_length, seq_length; lia).
    assert (FP : Forall (fun z => (0 <= z)%Z) (pads g axn pl)).
    { apply Forall_forall. intros z Hz. unfold pads in Hz. apply in_map_iff in Hz as (i & <- & _). auto. }
    clear - LP FP. revert jx LP. induction FP as [|z P Hz FP IH]; intros [|j jx] L; try discriminate; auto.
    change (((Z.of_nat j =? Z.of_nat (j + Z.to_nat z) + - z)%Z && shifted (map Z.opp P) (addw jx (wpos P)) jx)%bool = true).
    rewrite IH by (simpl in L; lia). rewrite andb_true_r. apply Z.eqb_eq. lia.
  - unfold pads. rewrite map_map. change (g_ndim g2) with (g_ndim g1). rewrite Q3. apply map_ext. intros i. symmetry. apply pad_of_opp.
Qed.

(** ** the calls *)
Lemma kval_value (g s : grid) d k act jx p : g_data g = Some d -> g_data s = Some k -> (g_nprop s = g_nprop g \/ g_nprop s = 1 \/ g_nprop g = 1) -> p < g_nprop g ->
  kval act (g_npix g) (g_npix s) (g_nprop g) (g_nprop s) d k jx p = conv_value act g s jx p.
Proof.
  intros Dg Ds Hq Hp. unfold kval, conv_value. apply vsum_ext. intros kx _. destruct (lag act (g_npix s) jx kx) as [lx|]; auto. cbn [opt].
  unfold cell0, cell. rewrite Dg, Ds.
  assert (E : kp (g_nprop g) (g_nprop s) p = kernel_prop g s p).
  { unfold kp, kernel_prop. destruct (Nat.eqb_spec (g_nprop s) 1); auto. destruct (Nat.eqb_spec (g_nprop g) 1) as [E|E].
    - rewrite E in *. replace p with 0 by lia. destruct (g_nprop s) as [|m]; [reflexivity|]. rewrite Nat.max_r by lia. reflexivity.
    - replace (g_nprop s) with (g_nprop g) by lia. rewrite Nat.max_id, Nat.sub_diag. change (0 / 2) with 0. lia. }
  rewrite E. destruct (inb _ _); auto. ring.
Qed.

Lemma pad_entries_ok axn pad pl : pad_amounts axn pad pl -> pad_entries (length axn) pad = Ok pl /\ length pl = length axn /\ is_plist pad = false.
Proof.
  destruct pad; simpl; try tauto.
  - intros ->. rewrite repeat_length. auto.
  - intros ->. rewrite repeat_length. auto.
  - intros [-> L]. rewrite L, Nat.eqb_refl. auto.
Qed.

Lemma plan_ok (g s : grid) ax axn pad d k : conv_ready g s ax axn -> g_data g = Some d -> g_data s = Some k ->
  convolve_plan g s ax pad = do pl <- pad_entries (length axn) pad ;;
     Ok (mkArr (removelast (shape k) ++ repeat 1 (length (shape d) - length (shape k)) ++ [last (shape k) 0]) (dat k), axn, pl).
Proof.
  intros (C & F & _ & Ff & Fp & Ks & Nm & Hne & Nd & Hlt & Fi) Dg Ds. unfold convolve_plan. rewrite Dg, Ds, Ff, Fp.
  destruct Ks as (Ln & _ & _ & k0 & Ds' & Wk & Sk). rewrite Ds in Ds'. injection Ds' as <-. destruct (data_ok _ _ C Dg) as [Wd Sd]. destruct Fi as (Fi1 & _).
  pose proof (co_n _ C) as Lg. assert (Lsd : length (shape d) = S (g_ndim g)) by (rewrite Sd, app_length; simpl; lia).
  assert (Lsk : length (shape k) = S (g_ndim s)) by (rewrite Sk, app_length; simpl; lia).
  destruct (Nat.ltb_spec (length (shape d)) (length (shape k))); [lia|]. cbv zeta.
  assert (E : match ax with None => Ok (seq 0 (g_ndim g - (length (shape d) - length (shape k)))) | Some l => do _ <- check (axes_valid g l) ValueError ;; Ok (map Z.to_nat l) end = Ok axn).
  { destruct ax as [l|]; cbn [conv_named] in Nm.
    - subst l. rewrite (axes_valid_nat (fun _ => v0) g axn Hlt). cbn [check bind]. rewrite map_map. f_equal. rewrite <- (map_id axn) at 2. apply map_ext. intros; apply Nat2Z.id.
    - subst axn. f_equal. f_equal. lia. }
  rewrite E. cbn [bind]. reflexivity.
Qed.

Lemma c16_main (g s : grid) ax axn pad pl : conv_ready g s ax axn -> pad_amounts axn pad pl -> (forall z, In z pl -> (0 <= z)%Z) -> pads_agree g axn pl ->
  exists d3, grid_convolve g s ax pad = (with_data g (Some d3), Ok tt) /\ awf d3 /\ shape d3 = g_npix g ++ [g_nprop g] /\
    forall jx p, inb (g_npix g) jx = true -> p < g_nprop g -> cell (with_data g (Some d3)) jx p = conv_value (fun i => mem_nat i axn) g s jx p.
Proof.
  intros R Pa Pos Ag. pose proof R as (C & F & Hd & Ff & Fp & Ks & Nm & Hne & Nd & Hlt & Fi).
  destruct (g_data g) as [d|] eqn:Dg; [|tauto]. pose proof Ks as (Ln & Fk & Hq0 & k & Ds & Wk & Sk). destruct Fi as (F1 & F2 & F3).
  destruct (pad_entries_ok _ _ _ Pa) as (Ep & Lp & Il). rewrite Forall_forall in Fk.
  destruct (conv_do_ok g d k (g_npix s) (g_nprop s) axn pl) as (d3 & E3 & _ & W3 & S3 & V3); auto; try lia.
  { intros i Hi. rewrite Ln in Hi. auto. }
  exists d3. unfold grid_convolve. rewrite (plan_ok g s ax axn pad d k R Dg Ds), Ep. cbn [bind]. rewrite Il. split; [exact E3|]. split; [auto|]. split; [auto|].
  intros jx p Hj Hp. rewrite <- (kval_value g s d k) by auto. unfold cell. gcbn. apply V3; auto.
Qed.

Lemma with_eq (g : grid) npix m d d' : awf d -> awf d' -> shape d = npix ++ [m] -> shape d' = npix ++ [m] ->
  (forall jx p, inb npix jx = true -> p < m -> cell (with_data g (Some d)) jx p = cell (with_data g (Some d')) jx p) -> d = d'.
Proof. intros W W' S S' H. apply (arr_eq_cells d d' npix m); auto. Qed.

Lemma c16_invisible (g s : grid) ax axn pad pl pad' pl' : conv_ready g s ax axn ->
  pad_amounts axn pad pl -> (forall z, In z pl -> (0 <= z)%Z) -> pads_agree g axn pl ->
  pad_amounts axn pad' pl' -> (forall z, In z pl' -> (0 <= z)%Z) -> pads_agree g axn pl' ->
  grid_convolve g s ax pad = grid_convolve g s ax pad'.
Proof.
  intros R A1 A2 A3 B1 B2 B3. destruct (c16_main g s ax axn pad pl R A1 A2 A3) as (d & E & W & S & V).
  destruct (c16_main g s ax axn pad' pl' R B1 B2 B3) as (d' & E' & W' & S' & V'). rewrite E, E'.
  replace d' with d; auto. apply (with_eq g (g_npix g) (g_nprop g)); auto. intros jx p Hj Hp. rewrite V, V'; auto.
Qed.

Lemma agree_zero (g : grid) axn : pads_agree g axn (repeat 0%Z (length axn)).
Proof.
  intros i Hi Hz. exfalso. apply Hz. unfold pad_of. destruct (index_nat i axn); auto. destruct (Nat.lt_ge_cases n (length axn)) as [L|L].
  - apply nth_repeat. - apply nth_overflow. rewrite repeat_length. auto.
Qed.

(** linear *)
Lemma conv_linear (g1 g2 g3 s : grid) act a b jx p : g_npix g1 = g_npix g3 -> g_npix g2 = g_npix g3 -> g_nprop g1 = g_nprop g3 -> g_nprop g2 = g_nprop g3 ->
  (forall jx, inb (g_npix g3) jx = true -> cell g3 jx p = (a * cell g1 jx p + b * cell g2 jx p)%V) ->
  conv_value act g3 s jx p = (a * conv_value act g1 s jx p + b * conv_value act g2 s jx p)%V.
Proof.
  intros N1 N2 P1 P2 H. unfold conv_value.
  assert (K1 : kernel_prop g1 s p = kernel_prop g3 s p) by (unfold kernel_prop; rewrite P1; reflexivity).
  assert (K2 : kernel_prop g2 s p = kernel_prop g3 s p) by (unfold kernel_prop; rewrite P2; reflexivity).
  rewrite K1, K2. generalize (idxs (g_npix s)). induction l as [|kx l IH]; cbn [map].
  - unfold vsum; cbn [fold_right]. ring.
  - rewrite !vsum_cons, IH. destruct (lag act (g_npix s) jx kx) as [lx|]; [|ring]. unfold cell0. rewrite N1, N2. destruct (inb (g_npix g3) lx) eqn:E; [rewrite H by auto; ring|ring].
Qed.

(** a kernel with a single one at its centre *)
Lemma lag_centre : forall ns act jx, length ns <= length jx -> (forall i, i < length ns -> act i = true \/ nth i ns 0 = 1) -> lag act ns jx (centre ns) = Some jx.
Proof.
  induction ns as [|n ns IH]; intros act jx L H; [destruct jx; reflexivity|]. destruct jx as [|j jx]; [simpl in L; lia|].
  change (centre (n :: ns)) with ((n - 1) / 2 :: centre ns). cbn [lag]. rewrite (IH (fun i => act (S i)) jx) by (simpl in *; try lia; intros i Hi; apply (H (S i)); lia).
  destruct (act 0) eqn:E.
  - destruct (Nat.leb_spec ((n - 1) / 2) (j + (n - 1) / 2)); [|lia]. f_equal. f_equal. lia.
  - destruct (H 0 ltac:(simpl; lia)) as [Q|Q]; [congruence|]. cbn [nth] in Q. subst n. reflexivity.
Qed.
Lemma c16_identity (g s : grid) ax axn pad pl : conv_ready g s ax axn -> pad_amounts axn pad pl -> (forall z, In z pl -> (0 <= z)%Z) -> pads_agree g axn pl ->
  (forall i, i < g_ndim s -> In i axn \/ nth i (g_npix s) 0 = 1) ->
  (forall kx r, inb (g_npix s) kx = true -> r < g_nprop s -> cell s kx r = if list_eq_dec Nat.eq_dec kx (centre (g_npix s)) then v1 else v0) ->
  grid_convolve g s ax pad = (g, Ok tt).
Proof.
  intros R Pa Pos Ag Hax Hk. destruct (c16_main g s ax axn pad pl R Pa Pos Ag) as (d3 & E & W & S & V).
  pose proof R as (C & F & Hd & Ff & Fp & Ks & Nm & Hne & Nd & Hlt & Fi). destruct (g_data g) as [d|] eqn:Dg; [|tauto].
  destruct (data_ok _ _ C Dg) as [Wd Sd]. destruct Ks as (Ln & Fk & Hq0 & _). destruct Fi as (F1 & F2 & F3).
  assert (Eg : with_data g (Some d) = g) by (rewrite <- Dg; clear; destruct g; reflexivity).
  rewrite E. f_equal. transitivity (with_data g (Some d)); [|exact Eg]. f_equal. f_equal. apply (with_eq g (g_npix g) (g_nprop g)); auto.
  intros jx p Hj Hp. rewrite V by auto. unfold conv_value.
  assert (Hc : inb (g_npix s) (centre (g_npix s)) = true).
  { clear - Fk. induction Fk as [|n l Hn F IH]; auto. change (centre (n :: l)) with ((n - 1) / 2 :: centre l). cbn [inb]. rewrite IH, andb_true_r. apply Nat.ltb_lt.
    assert ((n - 1) / 2 <= n - 1) by (apply Nat.div_le_upper_bound; lia). lia. }
  assert (Kp : kernel_prop g s p < g_nprop s).
  { unfold kernel_prop. destruct (Nat.eqb_spec (g_nprop s) 1); [lia|]. destruct (Nat.eqb_spec (g_nprop g) 1); [|lia].
    assert ((g_nprop s - 1) / 2 <= g_nprop s - 1) by (apply Nat.div_le_upper_bound; lia). lia. }
  set (eqb := fun a b : list nat => if list_eq_dec Nat.eq_dec a b then true else false).
  assert (Eb : forall x y, eqb x y = true <-> x = y) by (intros x y; unfold eqb; destruct (list_eq_dec Nat.eq_dec x y); split; congruence).
  rewrite (vsum_ext _ (fun kx => if eqb kx (centre (g_npix s)) then (fun _ => cell g jx p) kx else v0)).
  - rewrite (vsum_one _ eqb _ (centre (g_npix s)) Eb (nodup_idxs _)) by (apply in_idxs; auto). rewrite Eg. reflexivity.
  - intros kx Hkx. apply in_idxs in Hkx. rewrite Hk by auto. unfold eqb. destruct (list_eq_dec Nat.eq_dec kx (centre (g_npix s))) as [->|Ne].
    + rewrite lag_centre.
      * unfold cell0. rewrite Hj. ring.
      * apply inb_length in Hj. rewrite Hj, (co_n _ C). lia.
      * intros i Hi. rewrite Ln in Hi. destruct (Hax i Hi); auto. left. apply mem_nat_spec; auto.
    + destruct (lag _ _ jx kx); auto. ring.
Qed.

(** in_place=False *)
Lemma c16_new (g s : grid) ax axn pad pl : conv_ready g s ax axn -> pad_amounts axn pad pl -> (forall z, In z pl -> (0 <= z)%Z) -> pads_agree g axn pl ->
  length (g_gru g) = g_nprop g -> exists g', grid_convolve g s ax pad = (g', Ok tt) /\ grid_convolve_new g s ax pad = Ok g'.
Proof.
  intros R Pa Pos Ag Lu. destruct (c16_main g s ax axn pad pl R Pa Pos Ag) as (d3 & E & _). eexists. split; [exact E|].
  pose proof R as (C & F & Hd & _). unfold grid_convolve in E. unfold grid_convolve_new. destruct (convolve_plan g s ax pad) as [[[k ax'] pl']|]; [|discriminate].
  cbn [bind]. rewrite copy_all by (auto; tauto). cbn [bind]. rewrite E. reflexivity.
Qed.

(** a list of pads *)
Lemma c16_list (g s : grid) ax axn l : conv_ready g s ax axn -> length l = length axn -> (forall z, In z l -> (0 <= z)%Z) -> pads_agree g axn l ->
  exists g2, grid_convolve g s ax (PadList l) = (g2, Raise TypeError) /\
    forall i, i < g_ndim g -> Z.of_nat (nth i (g_npix g2) 0%nat) = (Z.of_nat (nth i (g_npix g) 0%nat) + 2 * pad_of axn l i)%Z.
Proof.
  intros R Lp Pos Ag. pose proof R as (C & F & Hd & Ff & Fp & Ks & Nm & Hne & Nd & Hlt & Fi).
  destruct (g_data g) as [d|] eqn:Dg; [|tauto]. pose proof Ks as (Ln & Fk & Hq0 & k & Ds & Wk & Sk). destruct Fi as (F1 & F2 & F3). rewrite Forall_forall in Fk.
  destruct (conv_do_ok g d k (g_npix s) (g_nprop s) axn l) as (d3 & _ & (g2 & _ & _ & E2 & V2) & _); auto; try lia.
  { intros i Hi. rewrite Ln in Hi. auto. }
  exists g2. unfold grid_convolve. rewrite (plan_ok g s ax axn (PadList l) d k R Dg Ds). cbn [pad_entries]. rewrite Lp, Nat.eqb_refl. cbn [check bind is_plist]. auto.
Qed.

Lemma agree_default (g s : grid) z : pads_agree g (seq 0 (g_ndim s)) (repeat z (length (seq 0 (g_ndim s)))).
Proof. apply agree_uniform. intros i Hi. apply in_seq in Hi. rewrite seq_length. lia. Qed.
Lemma default_amounts (s : grid) pad : (pad = PadNone \/ exists z, (0 <= z)%Z /\ pad = PadInt z) ->
  exists z, (0 <= z)%Z /\ pad_amounts (seq 0 (g_ndim s)) pad (repeat z (length (seq 0 (g_ndim s)))).
Proof. intros [->|(z & Hz & ->)]; [exists 0%Z|exists z]; split; simpl; auto; lia. Qed.

Lemma c16_one_axis (g s : grid) i z : conv_ready g s (Some [Z.of_nat i]) [i] -> (0 < i)%nat -> (0 < z)%Z ->
  grid_convolve g s (Some [Z.of_nat i]) (PadInt z) = (g, Raise IndexError).
Proof.
  intros R Hi Hz. pose proof R as (C & F & Hd & Ff & Fp & Ks & Nm & Hne & Nd & Hlt & Fi).
  destruct (g_data g) as [d|] eqn:Dg; [|tauto]. pose proof Ks as (Ln & Fk & Hq0 & k & Ds & Wk & Sk).
  unfold grid_convolve. rewrite (plan_ok g s _ [i] (PadInt z) d k R Dg Ds). cbn [pad_entries length repeat bind is_plist].
  unfold convolve_do. cbn [map]. rewrite c11_single_axis; auto; try lia. split; auto. apply Hlt. left; auto.
Qed.

Lemma repeat_nonneg z n : (0 <= z)%Z -> forall x, In x (repeat z n) -> (0 <= x)%Z.
Proof. intros H x Hx. apply repeat_spec in Hx. subst. auto. Qed.
Lemma mem_seq i n : mem_nat i (seq 0 n) = (i <? n).
Proof. apply eq_true_iff_eq. rewrite mem_nat_spec, in_seq, Nat.ltb_lt. lia. Qed.
Lemma lag_ext act act' : forall ns jx kx, (forall i, act i = act' i) -> lag act ns jx kx = lag act' ns jx kx.
Proof. revert act act'. intros act act' ns. revert act act'. induction ns as [|n ns IH]; intros act act' [|j jx] [|k kx] E; auto. cbn [lag]. rewrite E, (IH (fun i => act (S i)) (fun i => act' (S i))); auto. Qed.
Lemma conv_value_ext act act' (g s : grid) jx p : (forall i, act i = act' i) -> conv_value act g s jx p = conv_value act' g s jx p.
Proof. intros E. unfold conv_value. apply vsum_ext. intros kx _. rewrite (lag_ext act act') by auto. reflexivity. Qed.

Lemma c16_default (g s : grid) pad : conv_ready g s None (seq 0 (g_ndim s)) -> (pad = PadNone \/ exists z, (0 <= z)%Z /\ pad = PadInt z) ->
  exists d, grid_convolve g s None pad = (with_data g (Some d), Ok tt) /\ consistent (with_data g (Some d)) /\
    forall jx p, inb (g_npix g) jx = true -> p < g_nprop g -> cell (with_data g (Some d)) jx p = conv_value (fun i => i <? g_ndim s) g s jx p.
Proof.
  intros R Hp. destruct (default_amounts s pad Hp) as (z & Hz & Pa).
  destruct (c16_main g s None _ pad _ R Pa (repeat_nonneg _ _ Hz) (agree_default g s z)) as (d & E & W & S & V). exists d. split; [auto|].
  pose proof R as (C & F & _). split; [apply data_with; auto|]. intros jx p Hj Hpp. rewrite V by auto. apply conv_value_ext. intros i. apply mem_seq.
Qed.
Lemma c16_padding (g s : grid) ax axn pad pl : conv_ready g s ax axn ->
  pad_amounts axn pad pl -> (forall z, In z pl -> (0 <= z)%Z) -> pads_agree g axn pl -> grid_convolve g s ax pad = grid_convolve g s ax PadNone.
Proof. intros R P1 P2 P3. apply (c16_invisible g s ax axn pad pl PadNone (repeat 0%Z (length axn))); auto; [reflexivity|apply repeat_nonneg; lia|apply agree_zero]. Qed.
Lemma c16_padding_default (g s : grid) z : conv_ready g s None (seq 0 (g_ndim s)) -> (0 <= z)%Z -> grid_convolve g s None (PadInt z) = grid_convolve g s None PadNone.
Proof. intros R Hz. apply (c16_padding g s None (seq 0 (g_ndim s)) (PadInt z) (repeat z (length (seq 0 (g_ndim s))))); auto; [reflexivity|apply repeat_nonneg; auto|apply agree_default]. Qed.
Lemma c16_identity_default (g s : grid) pad : conv_ready g s None (seq 0 (g_ndim s)) -> (pad = PadNone \/ exists z, (0 <= z)%Z /\ pad = PadInt z) ->
  (forall kx r, inb (g_npix s) kx = true -> r < g_nprop s -> cell s kx r = if list_eq_dec Nat.eq_dec kx (centre (g_npix s)) then v1 else v0) ->
  grid_convolve g s None pad = (g, Ok tt).
Proof.
  intros R Hp Hk. destruct (default_amounts s pad Hp) as (z & Hz & Pa).
  apply (c16_identity g s None _ pad _ R Pa (repeat_nonneg _ _ Hz) (agree_default g s z)); auto. intros i Hi. left. apply in_seq. lia.
Qed.
Lemma c16_linear (g s : grid) ax axn (d1 d2 d3 : arr A) (a b : A) :
  let g1 := with_data g (Some d1) in let g2 := with_data g (Some d2) in let g3 := with_data g (Some d3) in
  conv_ready g1 s ax axn -> conv_ready g2 s ax axn -> conv_ready g3 s ax axn ->
  (forall jx p, inb (g_npix g) jx = true -> p < g_nprop g -> cell g3 jx p = (a * cell g1 jx p + b * cell g2 jx p)%V) ->
  exists h1 h2 h3, grid_convolve g1 s ax PadNone = (h1, Ok tt) /\ grid_convolve g2 s ax PadNone = (h2, Ok tt) /\ grid_convolve g3 s ax PadNone = (h3, Ok tt) /\
    forall jx p, inb (g_npix g) jx = true -> p < g_nprop g -> cell h3 jx p = (a * cell h1 jx p + b * cell h2 jx p)%V.
Proof.
  intros g1 g2 g3 R1 R2 R3 H.
  assert (M : forall h : grid, conv_ready h s ax axn -> exists d, grid_convolve h s ax PadNone = (with_data h (Some d), Ok tt) /\
      forall jx p, inb (g_npix h) jx = true -> p < g_nprop h -> cell (with_data h (Some d)) jx p = conv_value (fun i => mem_nat i axn) h s jx p).
  { intros h R. destruct (c16_main h s ax axn PadNone (repeat 0%Z (length axn)) R eq_refl (repeat_nonneg 0 _ ltac:(lia)) (agree_zero h axn)) as (d & E & _ & _ & V). eauto. }
  destruct (M g1 R1) as (e1 & E1 & V1), (M g2 R2) as (e2 & E2 & V2), (M g3 R3) as (e3 & E3 & V3).
  eexists _, _, _. split; [exact E1|]. split; [exact E2|]. split; [exact E3|]. intros jx p Hj Hp. rewrite V1, V2, V3 by auto.
  apply conv_linear; auto.
Qed.
End Conv.
