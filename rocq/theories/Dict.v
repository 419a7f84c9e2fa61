(** Python dictionaries with string keys, as association lists in insertion
    order. No part of simim is modelled here. *)
From Coq Require Export String.
From Verif Require Import Util.

Definition dict (A : Type) := list (string * A).

Definition dkeys {A} (d : dict A) : list string := map fst d.

(** [d.get(k)] *)
Fixpoint dget {A} (d : dict A) (k : string) : option A :=
  match d with
  | [] => None
  | (k', v) :: d' => if String.eqb k k' then Some v else dget d' k
  end.

(** [d[k] = v] : in place when the key exists, otherwise appended *)
Fixpoint dset {A} (d : dict A) (k : string) (v : A) : dict A :=
  match d with
  | [] => [(k, v)]
  | (k', w) :: d' => if String.eqb k k' then (k, v) :: d' else (k', w) :: dset d' k v
  end.

(** [d.pop(k, None)] *)
Definition ddel {A} (d : dict A) (k : string) : dict A :=
  filter (fun kv => negb (String.eqb k (fst kv))) d.

(** [k in l] for a list of strings *)
Definition smem (k : string) (l : list string) : bool := existsb (String.eqb k) l.

(** [k in d.keys()] *)
Definition dmem {A} (d : dict A) (k : string) : bool := smem k (dkeys d).

(** [d[k]], raising KeyError *)
Definition dfind {A} (d : dict A) (k : string) : exc A :=
  match dget d k with Some v => Ok v | None => Raise KeyError end.

Lemma smem_In k l : smem k l = true <-> In k l.
Proof.
  unfold smem; rewrite existsb_exists; split.
  - intros (y & Hy & E). apply String.eqb_eq in E; subst; auto.
  - intros H; exists k; split; auto. apply String.eqb_refl.
Qed.

Lemma smem_false k l : smem k l = false <-> ~ In k l.
Proof. rewrite <- smem_In. destruct (smem k l); split; congruence. Qed.

Lemma dmem_get {A} (d : dict A) k : dmem d k = match dget d k with Some _ => true | None => false end.
Proof.
  induction d as [|(k', v) d IH]; simpl; [reflexivity|].
  unfold dmem in *; simpl. destruct (String.eqb k k'); simpl; auto.
Qed.

Lemma dmem_some {A} (d : dict A) k : dmem d k = true <-> exists v, dget d k = Some v.
Proof.
  rewrite dmem_get. destruct (dget d k) as [v|]; split; intros H; eauto; try discriminate.
  destruct H; discriminate.
Qed.

Lemma dmem_none {A} (d : dict A) k : dmem d k = false <-> dget d k = None.
Proof. rewrite dmem_get. destruct (dget d k); split; congruence. Qed.

Lemma dget_dset {A} (d : dict A) k v j :
  dget (dset d k v) j = if String.eqb j k then Some v else dget d j.
Proof.
  induction d as [|(k', w) d IH]; simpl.
  - reflexivity.
  - destruct (String.eqb_spec k k') as [->|Hn]; simpl.
    + destruct (String.eqb j k'); reflexivity.
    + rewrite IH. destruct (String.eqb_spec j k'); [subst|reflexivity].
      destruct (String.eqb_spec k' k); [subst; congruence|reflexivity].
Qed.

Lemma dget_dset_eq {A} (d : dict A) k v : dget (dset d k v) k = Some v.
Proof. rewrite dget_dset, String.eqb_refl; reflexivity. Qed.

Lemma dget_dset_ne {A} (d : dict A) k v j : j <> k -> dget (dset d k v) j = dget d j.
Proof. intros H; rewrite dget_dset. destruct (String.eqb_spec j k); congruence. Qed.

Lemma dget_ddel {A} (d : dict A) k j :
  dget (ddel d k) j = if String.eqb k j then None else dget d j.
Proof.
  induction d as [|(k', w) d IH]; simpl.
  - destruct (String.eqb k j); reflexivity.
  - unfold ddel in *; cbn [filter fst].
    destruct (String.eqb_spec k k') as [->|Hn]; simpl.
    + rewrite IH. destruct (String.eqb_spec k' j) as [->|Hj]; [reflexivity|].
      destruct (String.eqb_spec j k'); [congruence|reflexivity].
    + rewrite IH. destruct (String.eqb_spec k j) as [->|Hj].
      * destruct (String.eqb_spec j k'); [congruence|reflexivity].
      * reflexivity.
Qed.

Lemma dmem_dset {A} (d : dict A) k v j : dmem (dset d k v) j = String.eqb j k || dmem d j.
Proof. rewrite !dmem_get, dget_dset. destruct (String.eqb j k); reflexivity. Qed.

Lemma dmem_ddel {A} (d : dict A) k j : dmem (ddel d k) j = negb (String.eqb k j) && dmem d j.
Proof. rewrite !dmem_get, dget_ddel. destruct (String.eqb k j); reflexivity. Qed.

Lemma dget_In {A} (d : dict A) k v : dget d k = Some v -> In (k, v) d.
Proof.
  induction d as [|(k', w) d IH]; simpl; [discriminate|].
  destruct (String.eqb_spec k k') as [->|Hn]; [intros [= ->]; auto|auto].
Qed.

Lemma dget_dkeys {A} (d : dict A) k : In k (dkeys d) <-> exists v, dget d k = Some v.
Proof. rewrite <- dmem_some. unfold dmem. symmetry; apply smem_In. Qed.
