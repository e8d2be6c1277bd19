(** * Calls on shared objects: proofs *)
From Coq Require Import Reals ZArith List Bool Arith Lia.
From Verif Require Import Base ModelUtil ModelCircle ModelPaths ModelWrap ModelShared SpecShared.
Import ListNotations.

(** ** Results that do not depend on the members *)

Definition steady {A} (p : Prog A) (v : A) : Prop := forall mem, fst (run p mem) = v.

Lemma run_bind : forall {A B} (p : Prog A) (f : A -> Prog B) mem,
  run (bind p f) mem = run (f (fst (run p mem))) (snd (run p mem)).
Proof.
  intros A B p f; induction p as [a | a k IH | a v k IH]; intros mem; cbn [bind run fst snd]; auto.
Qed.

Lemma steady_done : forall {A} (a : A), steady (Done a) a.
Proof. intros A a mem; reflexivity. Qed.

Lemma steady_bind : forall {A B} (p : Prog A) (f : A -> Prog B) a b,
  steady p a -> steady (f a) b -> steady (bind p f) b.
Proof. intros A B p f a b Hp Hf mem; rewrite run_bind, Hp; apply Hf. Qed.

Lemma steady_map : forall {A B} (p : Prog A) (f : A -> B) a,
  steady p a -> steady (bind p (fun x => Done (f x))) (f a).
Proof. intros; eapply steady_bind; [eassumption | apply steady_done]. Qed.

Lemma steady_in_order : forall {A X} (f : X -> Prog A) (g : X -> A) l,
  (forall x, steady (f x) (g x)) -> steady (in_order (map f l)) (map g l).
Proof.
  intros A X f g l H; induction l as [|x l IH]; cbn [map in_order]; [apply steady_done|].
  eapply steady_bind; [apply H|]; eapply steady_bind; [apply IH | apply steady_done].
Qed.

(** ** Programs that only read the two members of an object *)

Definition sees {A} (object : nat) (d a : R) (p : Prog A) (v : A) : Prop :=
  forall mem, mem (object, Distance) = d -> mem (object, Angle) = a -> run p mem = (v, mem).

Lemma sees_done : forall {A} object d a (v : A), sees object d a (Done v) v.
Proof. intros A o d a v mem _ _; reflexivity. Qed.

Lemma sees_members : forall {A} object d a (f : R -> R -> A), sees object d a (with_members object f) (f d a).
Proof. intros A o d a f mem Hd Ha; cbn [with_members run]; rewrite Hd, Ha; reflexivity. Qed.

Lemma sees_read : forall {A} object d a (k : R -> Prog A) v,
  sees object d a (k d) v -> sees object d a (Read (object, Distance) k) v.
Proof. intros A o d a k v H mem Hd Ha; cbn [run]; rewrite Hd; apply H; assumption. Qed.

Lemma sees_nil : forall {A} object d a, sees object d a (@in_order A []) [].
Proof. intros A o d a mem _ _; reflexivity. Qed.

Lemma sees_cons : forall {A} object d a (p : Prog A) ps v vs,
  sees object d a p v -> sees object d a (in_order ps) vs -> sees object d a (in_order (p :: ps)) (v :: vs).
Proof.
  intros A o d a p ps v vs Hp Hps mem Hd Ha; cbn [in_order].
  rewrite run_bind, (Hp mem Hd Ha); cbn [fst snd].
  rewrite run_bind, (Hps mem Hd Ha); reflexivity.
Qed.

Lemma sees_if : forall {A} object d a (b : bool) (p q : Prog A) v w,
  sees object d a p v -> sees object d a q w -> sees object d a (if b then p else q) (if b then v else w).
Proof. intros A o d a [|]; auto. Qed.

Lemma address_eqb_refl : forall a, address_eqb a a = true.
Proof. intros [o [|]]; unfold address_eqb; cbn; rewrite Nat.eqb_refl; reflexivity. Qed.

Lemma address_eqb_true : forall a b, address_eqb a b = true -> a = b.
Proof.
  intros [o m] [o' m']; unfold address_eqb; cbn; intros H; apply andb_prop in H; destruct H as [H1 H2].
  apply Nat.eqb_eq in H1; subst; destruct m, m'; try discriminate; reflexivity.
Qed.

Lemma steady_writes : forall {A} object d a (p : Prog A) v,
  sees object d a p v -> steady (Write (object, Distance) d (Write (object, Angle) a p)) v.
Proof.
  intros A o d a p v H mem; cbn [run].
  rewrite H; [reflexivity | |]; unfold store, address_eqb; cbn; rewrite Nat.eqb_refl; reflexivity.
Qed.

Ltac see :=
  match goal with
  | |- sees _ _ _ (if _ then _ else _) (if _ then _ else _) => apply sees_if; see
  | |- sees _ _ _ (Read _ _) _ => apply sees_read; cbv beta; see
  | |- sees _ _ _ (in_order (_ :: _)) (_ :: _) => apply sees_cons; [see | see]
  | |- sees _ _ _ (in_order []) [] => apply sees_nil
  | |- sees _ _ _ (Done ?v) _ => exact (sees_done _ _ _ v)
  | |- sees _ ?d ?a (with_members _ ?f) _ => exact (sees_members _ d a f)
  end.

(** ** Programs that access only some objects *)

Inductive touches (O : nat -> Prop) {A} : Prog A -> Prop :=
  | touches_done : forall a, touches O (Done a)
  | touches_read : forall o m k, O o -> (forall v, touches O (k v)) -> touches O (Read (o, m) k)
  | touches_write : forall o m v k, O o -> touches O k -> touches O (Write (o, m) v k).

Definition agree (O : nat -> Prop) (m1 m2 : Memory) : Prop := forall o m, O o -> m1 (o, m) = m2 (o, m).

Lemma touches_bind : forall O {A B} (p : Prog A) (f : A -> Prog B),
  touches O p -> (forall a, touches O (f a)) -> touches O (bind p f).
Proof.
  intros O A B p f Hp Hf; induction Hp; cbn [bind]; [apply Hf | |]; constructor; auto.
Qed.

Lemma touches_map : forall O {A B} (p : Prog A) (f : A -> B),
  touches O p -> touches O (bind p (fun x => Done (f x))).
Proof. intros; apply touches_bind; [assumption | intros; constructor]. Qed.

Lemma touches_nil : forall O {A}, touches O (@in_order A []).
Proof. intros; constructor. Qed.

Lemma touches_cons : forall O {A} (p : Prog A) ps,
  touches O p -> touches O (in_order ps) -> touches O (in_order (p :: ps)).
Proof.
  intros O A p ps Hp Hps; cbn [in_order]; apply touches_bind; [exact Hp|].
  intros; apply touches_bind; [exact Hps | intros; constructor].
Qed.

Lemma touches_in_order : forall O {A X} (f : X -> Prog A) l,
  (forall x, touches O (f x)) -> touches O (in_order (map f l)).
Proof.
  intros O A X f l H; induction l as [|x l IH]; cbn [map]; [apply touches_nil | apply touches_cons; auto].
Qed.

Lemma touches_members : forall (O : nat -> Prop) {A} object (f : R -> R -> A), O object -> touches O (with_members object f).
Proof. intros; unfold with_members; repeat (constructor; [assumption | intros]); constructor. Qed.

Lemma touches_weaken : forall (O O' : nat -> Prop) {A} (p : Prog A),
  (forall o, O o -> O' o) -> touches O p -> touches O' p.
Proof. intros O O' A p H Hp; induction Hp; constructor; auto. Qed.

Ltac touch :=
  match goal with
  | |- touches _ (if ?b then _ else _) => destruct b; touch
  | |- touches _ (Read _ _) => constructor; [reflexivity | intros; touch]
  | |- touches _ (Write _ _ _) => constructor; [reflexivity | touch]
  | |- touches _ (in_order (_ :: _)) => apply touches_cons; [touch | touch]
  | |- touches _ (in_order []) => apply touches_nil
  | |- touches _ (Done _) => constructor
  | |- touches _ (with_members _ _) => apply touches_members; reflexivity
  end.

Lemma agree_store : forall O m1 m2 o m v, agree O m1 m2 -> agree O (store m1 (o, m) v) (store m2 (o, m) v).
Proof.
  intros O m1 m2 o m v H o' m' Ho; unfold store; destruct (address_eqb (o', m') (o, m)); [reflexivity | auto].
Qed.

Lemma agree_other : forall (O : nat -> Prop) m1 m2 o m v, agree O m1 m2 -> ~ O o -> agree O (store m1 (o, m) v) m2.
Proof.
  intros O m1 m2 o m v H Ho o' m' Ho'; unfold store.
  destruct (address_eqb (o', m') (o, m)) eqn:E; [|auto].
  apply address_eqb_true in E; injection E as -> ->; contradiction.
Qed.

Lemma touches_agree : forall O {A} (p : Prog A), touches O p ->
  forall m1 m2, agree O m1 m2 -> fst (run p m1) = fst (run p m2).
Proof.
  intros O A p Hp; induction Hp as [a | o m k Ho Hk IH | o m v k Ho Hk IH]; intros m1 m2 H; cbn [run]; [reflexivity | |].
  - rewrite (H o m Ho); apply IH; exact H.
  - apply IH, agree_store; exact H.
Qed.

Lemma interleave_apart : forall (P Q : nat -> Prop) {A B}, (forall o, P o -> Q o -> False) ->
  forall schedule (p : Prog A) (q : Prog B) mem p' q' mem',
  touches P p -> touches Q q -> interleave schedule p q mem = (p', q', mem') ->
  fst (run p' mem') = fst (run p mem) /\ fst (run q' mem') = fst (run q mem).
Proof.
  intros P Q A B HPQ; induction schedule as [|b schedule IH]; intros p q mem p' q' mem' Hp Hq H; cbn [interleave] in H.
  - injection H as <- <- <-; auto.
  - destruct b.
    + destruct Hp as [a | o m k Ho Hk | o m v k Ho Hk]; cbn [run].
      * apply IH in H; [|constructor|assumption]; exact H.
      * apply IH in H; [|apply Hk|assumption]; exact H.
      * apply IH in H; [|assumption|assumption]; destruct H as [H1 H2]; split; [exact H1|].
        rewrite H2; apply (touches_agree Q); [assumption|].
        apply agree_other; [intros ? ? ?; reflexivity | intros Hq'; exact (HPQ _ Ho Hq')].
    + destruct Hq as [a | o m k Ho Hk | o m v k Ho Hk]; cbn [run].
      * apply IH in H; [|assumption|constructor]; exact H.
      * apply IH in H; [|assumption|apply Hk]; exact H.
      * apply IH in H; [|assumption|assumption]; destruct H as [H1 H2]; split; [|exact H2].
        rewrite H1; apply (touches_agree P); [assumption|].
        apply agree_other; [intros ? ? ?; reflexivity | intros Hp'; exact (HPQ _ Hp' Ho)].
Qed.

Lemma apart_undisturbed : forall (P Q : nat -> Prop) {A B} (p : Prog A) (q : Prog B),
  (forall o, P o -> Q o -> False) -> touches P p -> touches Q q -> undisturbed p q.
Proof.
  intros P Q A B p q HPQ Hp Hq mem schedule a b mem' H.
  exact (interleave_apart P Q HPQ schedule p q mem (Done a) (Done b) mem' Hp Hq H).
Qed.
