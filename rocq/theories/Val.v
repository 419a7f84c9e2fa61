(** Cell values: an arbitrary commutative algebra over the rationals with an
    involution (complex conjugation).  Instances: rationals (real-valued maps)
    and Gaussian rationals; [Complex.v] adds the complex numbers. *)
From Coq Require Export Permutation Ring.
From Verif Require Import Util Rat.
Open Scope Qc_scope.

Record Alg := {
  car :> Type;
  v0 : car; v1 : car;
  vadd : car -> car -> car; vmul : car -> car -> car;
  vsub : car -> car -> car; vopp : car -> car;
  v_rt : ring_theory v0 v1 vadd vmul vsub vopp (@eq car);
  emb : Qc -> car;
  emb_1 : emb 1 = v1;
  emb_add : forall a b, emb (a + b) = vadd (emb a) (emb b);
  emb_mul : forall a b, emb (a * b) = vmul (emb a) (emb b);
  star : car -> car;
  star_add : forall a b, star (vadd a b) = vadd (star a) (star b);
  star_mul : forall a b, star (vmul a b) = vmul (star a) (star b);
  star_star : forall a, star (star a) = a;
  star_emb : forall q, star (emb q) = emb q
}.
Arguments v0 {_}. Arguments v1 {_}.
Arguments vadd {_}. Arguments vmul {_}. Arguments vsub {_}. Arguments vopp {_}.
Arguments emb {_}. Arguments star {_}.

Declare Scope val_scope.
Delimit Scope val_scope with V.
Notation "a + b" := (vadd a b) : val_scope.
Notation "a * b" := (vmul a b) : val_scope.
Notation "a - b" := (vsub a b) : val_scope.
Notation "- a" := (vopp a) : val_scope.
Notation "0" := v0 : val_scope.
Notation "1" := v1 : val_scope.

(** real part, [x.real] *)
Definition vre {A : Alg} (x : A) : A := (emb (frac 1 2) * (x + star x))%V.

Definition vsum {A : Alg} (l : list A) : A := fold_right vadd v0 l.
Arguments vsum {A} l : simpl never.

(** x ** n *)
Fixpoint vpow {A : Alg} (x : A) (n : nat) : A := match n with O => v1 | S n' => (x * vpow x n')%V end.

Section Alg.
  Context {A : Alg}.
  Add Ring A_ring : (v_rt A).
  Open Scope val_scope.

  Lemma vadd_0_r (a : A) : a + 0 = a. Proof. ring. Qed.
  Lemma vadd_0_l (a : A) : 0 + a = a. Proof. ring. Qed.
  Lemma vadd_comm (a b : A) : a + b = b + a. Proof. ring. Qed.
  Lemma vadd_assoc (a b c : A) : a + (b + c) = (a + b) + c. Proof. ring. Qed.
  Lemma vmul_0_r (a : A) : a * 0 = 0. Proof. ring. Qed.
  Lemma vmul_0_l (a : A) : 0 * a = 0. Proof. ring. Qed.
  Lemma vmul_1_l (a : A) : 1 * a = a. Proof. ring. Qed.
  Lemma vmul_1_r (a : A) : a * 1 = a. Proof. ring. Qed.
  Lemma vmul_comm (a b : A) : a * b = b * a. Proof. ring. Qed.
  Lemma vadd_cancel (a b c : A) : a + b = a + c -> b = c.
  Proof. intros H. assert (E : (a + b) - a = (a + c) - a) by (rewrite H; reflexivity). ring_simplify in E. exact E. Qed.

  Lemma emb_0 : emb 0%Qc = (0 : A).
  Proof.
    assert (E : emb 0%Qc + emb 0%Qc = emb 0%Qc + (0:A)).
    { rewrite <- emb_add, vadd_0_r. f_equal. }
    apply vadd_cancel in E. exact E.
  Qed.

  Lemma emb_opp q : emb (- q)%Qc = - (emb q : A).
  Proof.
    apply (vadd_cancel (emb q)). rewrite <- emb_add.
    replace (q + - q)%Qc with 0%Qc by (symmetry; apply Qcplus_opp_r). rewrite emb_0. ring.
  Qed.

  Lemma emb_inv q : q <> 0%Qc -> emb q * emb (/ q)%Qc = (1 : A).
  Proof. intros H. rewrite <- emb_mul, Qcmult_inv_r by exact H. apply emb_1. Qed.

  Lemma star_0 : star (0 : A) = 0.
  Proof. rewrite <- emb_0. apply star_emb. Qed.
  Lemma star_1 : star (1 : A) = 1.
  Proof. rewrite <- emb_1. apply star_emb. Qed.

  Lemma vsum_app (l m : list A) : vsum (l ++ m) = vsum l + vsum m.
  Proof. unfold vsum. induction l as [|a l IH]; simpl; [ring|]. rewrite IH. ring. Qed.
  Lemma vsum_cons (a : A) l : vsum (a :: l) = a + vsum l. Proof. reflexivity. Qed.

  Lemma vsum_map_add {X} (f g : X -> A) l :
    vsum (map (fun x => f x + g x) l) = vsum (map f l) + vsum (map g l).
  Proof. induction l as [|a l IH]; unfold vsum in *; simpl; [ring|]. rewrite IH. ring. Qed.

  Lemma vsum_map_0 {X} (f : X -> A) l : (forall x, In x l -> f x = 0) -> vsum (map f l) = 0.
  Proof.
    induction l as [|a l IH]; unfold vsum in *; simpl; intros H; [reflexivity|].
    rewrite H by auto. rewrite IH by auto. ring.
  Qed.

  Lemma vsum_mul_l {X} (c : A) (f : X -> A) l : vsum (map (fun x => c * f x) l) = c * vsum (map f l).
  Proof. induction l as [|a l IH]; unfold vsum in *; simpl; [ring|]. rewrite IH. ring. Qed.
  Lemma vsum_mul_r {X} (c : A) (f : X -> A) l : vsum (map (fun x => f x * c) l) = vsum (map f l) * c.
  Proof. induction l as [|a l IH]; unfold vsum in *; simpl; [ring|]. rewrite IH. ring. Qed.

  Lemma vsum_perm (l m : list A) : Permutation l m -> vsum l = vsum m.
  Proof. induction 1; unfold vsum in *; simpl; try congruence; try ring. Qed.

  Lemma vsum_ext {X} (f g : X -> A) l : (forall x, In x l -> f x = g x) -> vsum (map f l) = vsum (map g l).
  Proof. intros H. f_equal. apply map_ext_in; auto. Qed.

  Lemma vsum_exchange {X Y} (f : X -> Y -> A) l m :
    vsum (map (fun x => vsum (map (f x) m)) l) = vsum (map (fun y => vsum (map (fun x => f x y) l)) m).
  Proof.
    induction l as [|a l IH]; simpl.
    - symmetry. apply vsum_map_0. reflexivity.
    - rewrite vsum_cons, IH. change (fun y => vsum (f a y :: map (fun x => f x y) l))
        with (fun y => f a y + vsum (map (fun x => f x y) l)).
      rewrite vsum_map_add. reflexivity.
  Qed.

  Lemma vsum_flat_map {X} (f : X -> list A) l : vsum (flat_map f l) = vsum (map (fun x => vsum (f x)) l).
  Proof. induction l as [|a l IH]; simpl; [reflexivity|]. rewrite vsum_app, IH. reflexivity. Qed.

  Lemma vsum_map_flat_map {X Y} (g : Y -> A) (f : X -> list Y) l :
    vsum (map g (flat_map f l)) = vsum (map (fun x => vsum (map g (f x))) l).
  Proof. induction l as [|a l IH]; simpl; [reflexivity|]. rewrite map_app, vsum_app, IH. reflexivity. Qed.

  Lemma vsum_filter {X} (p : X -> bool) (f : X -> A) l :
    vsum (map f (filter p l)) = vsum (map (fun x => if p x then f x else 0) l).
  Proof.
    induction l as [|a l IH]; simpl; [reflexivity|].
    destruct (p a); simpl; rewrite vsum_cons, IH; [reflexivity|ring].
  Qed.

  (** sum with at most one non-zero term *)
  Lemma vsum_single {X} (f : X -> A) l x0 :
    NoDup l -> In x0 l -> (forall x, In x l -> x <> x0 -> f x = 0) -> vsum (map f l) = f x0.
  Proof.
    induction 1 as [|a l Hn Hd IH]; simpl; intros Hin H0; [tauto|].
    rewrite vsum_cons. destruct Hin as [->|Hin].
    - rewrite vsum_map_0; [ring|]. intros x Hx. apply H0; auto. intros ->. tauto.
    - rewrite H0; auto; [|intros ->; tauto]. rewrite IH; auto. ring.
  Qed.

  Lemma star_sum (l : list A) : star (vsum l) = vsum (map star l).
  Proof.
    induction l as [|a l IH]; simpl; [apply star_0|].
    rewrite !vsum_cons, star_add, IH. reflexivity.
  Qed.

  Lemma emb_qsum l : emb (qsum l) = vsum (map (fun q => (emb q : A)) l).
  Proof.
    induction l as [|a l IH]; simpl; [apply emb_0|].
    unfold qsum in *. simpl. rewrite emb_add, IH. reflexivity.
  Qed.
End Alg.

(** * Rationals *)
Definition QcAlg : Alg.
  refine {| car := Qc; v0 := 0%Qc; v1 := 1%Qc; vadd := Qcplus; vmul := Qcmult;
            vsub := Qcminus; vopp := Qcopp; v_rt := Qcrt; emb := fun q => q; star := fun q => q |};
  reflexivity.
Defined.

(** * Gaussian rationals [a + b i] *)
Record GQ := gq { gre : Qc; gim : Qc }.
Definition gq_add x y := gq (gre x + gre y) (gim x + gim y).
Definition gq_sub x y := gq (gre x - gre y) (gim x - gim y).
Definition gq_opp x := gq (- gre x) (- gim x).
Definition gq_mul x y := gq (gre x * gre y - gim x * gim y) (gre x * gim y + gim x * gre y).
Lemma gq_rt : ring_theory (gq 0 0) (gq 1 0) gq_add gq_mul gq_sub gq_opp (@eq GQ).
Proof.
  constructor; intros; repeat match goal with x : GQ |- _ => destruct x end;
    unfold gq_add, gq_mul, gq_sub, gq_opp; simpl; f_equal; ring.
Qed.
Definition GQAlg : Alg.
  refine {| car := GQ; v0 := gq 0 0; v1 := gq 1 0; vadd := gq_add; vmul := gq_mul;
            vsub := gq_sub; vopp := gq_opp; v_rt := gq_rt;
            emb := fun q => gq q 0; star := fun x => gq (gre x) (- gim x) |};
  intros; repeat match goal with x : GQ |- _ => destruct x end;
  unfold gq_add, gq_mul, gq_sub, gq_opp; simpl; f_equal; ring.
Defined.
