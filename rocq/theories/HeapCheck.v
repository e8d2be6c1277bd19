(** * A checker for ownership, and its soundness *)
From Coq Require Import List String Bool Arith Lia.
From Verif Require Import ModelHeap.
Import ListNotations.

(** What is known of a pointer variable: it is null; it owns a block; one of these; nothing is known but
    it owns no block. A variable that is not listed owns no block either. *)
Inductive Known : Type := KNull | KOwn | KMaybe | KNone.
Definition Table := list (string * Known).

Fixpoint look (t : Table) (x : string) : Known :=
  match t with
  | [] => KNone
  | (y, v) :: t => if String.eqb x y then v else look t x
  end.
Fixpoint put_known (t : Table) (x : string) (v : Known) : Table :=
  match t with
  | [] => [(x, v)]
  | (y, w) :: t => if String.eqb x y then (y, v) :: t else (y, w) :: put_known t x v
  end.
Fixpoint put_results (t : Table) (tr : Table) (rs : list string) : Table :=
  match rs with
  | [] => t
  | x :: rs => put_known (put_results t tr rs) x (look tr x)
  end.
Fixpoint take_out (t : Table) (x : string) : Table :=
  match t with
  | [] => []
  | (y, w) :: t => if String.eqb x y then take_out t x else (y, w) :: take_out t x
  end.

Definition owner (v : Known) : bool := match v with KOwn | KMaybe => true | _ => false end.

Definition join1 (v w : Known) : option Known :=
  match v, w with
  | KNull, KNull => Some KNull
  | KOwn, KOwn => Some KOwn
  | KNone, KNone | KNone, KNull | KNull, KNone => Some KNone
  | KNone, _ | _, KNone => None
  | _, _ => Some KMaybe
  end.
Fixpoint join (t u : Table) : option Table :=
  match t, u with
  | [], [] => Some []
  | (x, v) :: t, (y, w) :: u =>
      if String.eqb x y then
        match join1 v w, join t u with Some z, Some r => Some ((x, z) :: r) | _, _ => None end
      else None
  | _, _ => None
  end.

(** The outcome of a check: what is known at the normal end and at a return, if these can be reached. *)
Definition Outcome := (option Table * option Table)%type.

Definition merge (a b : option Table) : option (option Table) :=
  match a, b with
  | None, _ => Some b
  | _, None => Some a
  | Some t, Some u => match join t u with Some r => Some (Some r) | None => None end
  end.

Definition check_list (check : Stm -> Table -> option Outcome) : list Stm -> Table -> option Outcome :=
  fix go (l : list Stm) (t : Table) : option Outcome :=
    match l with
    | [] => Some (Some t, None)
    | s :: l =>
        match check s t with
        | None => None
        | Some (None, r) => Some (None, r)
        | Some (Some t, r) =>
            match go l t with
            | None => None
            | Some (n, r') => match merge r r' with Some r => Some (n, r) | None => None end
            end
        end
    end.

Section Check.

(** What is known of the variables of a function at its end. *)
Variable ends : string -> option Table.

Fixpoint check (s : Stm) (t : Table) : option Outcome :=
  match s with
  | Declare x => if owner (look t x) then None else Some (Some (put_known t x KNone), None)
  | SetNull x => if owner (look t x) then None else Some (Some (put_known t x KNull), None)
  | New x => if owner (look t x) then None else Some (Some (put_known t x KOwn), None)
  | Use x => match look t x with KOwn => Some (Some t, None) | _ => None end
  | UseOrNull x => match look t x with KNone => None | _ => Some (Some t, None) end
  | Assign x y =>
      if owner (look t x) then None
      else match look t y with
           | KNone => None
           | KNull => Some (Some (put_known t x KNull), None)
           | v => Some (Some (put_known (put_known t y KNone) x v), None)
           end
  | Delete x =>
      match look t x with
      | KNone => None
      | KNull => Some (Some t, None)
      | _ => Some (Some (put_known t x KNone), None)
      end
  | Drop x => if owner (look t x) then None else Some (Some (take_out t x), None)
  | Either a b =>
      match check_list check a t, check_list check b t with
      | Some (n, r), Some (n', r') =>
          match merge n n', merge r r' with Some n, Some r => Some (n, r) | _, _ => None end
      | _, _ => None
      end
  | Call body =>
      match check_list check body t with
      | Some (n, r) => match merge n r with Some n => Some (n, None) | None => None end
      | None => None
      end
  | Proc f rs =>
      match ends f with
      | Some tr =>
          if forallb (fun x => negb (owner (look t x))) rs &&
             forallb (fun p => negb (owner (snd p)) || existsb (String.eqb (fst p)) rs) tr
          then Some (Some (put_results t tr rs), None) else None
      | None => None
      end
  | Return => Some (None, Some t)
  end.

(** What is known at the end of a function. *)
Definition at_end (body : list Stm) : option Table :=
  match check_list check body [] with
  | Some (n, r) => match merge n r with Some o => o | None => None end
  | None => None
  end.

End Check.

Definition no_owner (t : Table) : bool := forallb (fun p => negb (owner (snd p))) t.

(** A program that frees everything it allocates. *)
Definition clean (ends : string -> option Table) (p : list Stm) : bool :=
  match at_end ends p with
  | Some t => no_owner t
  | None => false
  end.

(** ** Soundness *)

Definition owns (k : string -> Known) (h : Heap) (x : string) (n : nat) : Prop :=
  owner (k x) = true /\ h_env h x = Ptr n.

(** [F]: the blocks that belong to the callers. *)
Record fits (F : nat -> Prop) (k : string -> Known) (h : Heap) : Prop := {
  fit_value : forall x, match k x with
                        | KNull => h_env h x = Null
                        | KOwn => exists n, h_env h x = Ptr n /\ In n (h_live h)
                        | KMaybe => h_env h x = Null \/ exists n, h_env h x = Ptr n /\ In n (h_live h)
                        | KNone => True
                        end;
  fit_one : forall x y n, owns k h x n -> owns k h y n -> x = y;
  fit_all : forall n, In n (h_live h) -> (exists x, owns k h x n) \/ F n;
  fit_frame : forall n, F n -> In n (h_live h);
  fit_apart : forall x n, owns k h x n -> ~ F n;
  fit_fresh : forall n, In n (h_live h) -> n < h_next h }.

Lemma owns_live : forall F k h x n, fits F k h -> owns k h x n -> In n (h_live h).
Proof.
  intros F k h x n Ft [H1 H2]; pose proof (fit_value F k h Ft x) as V; destruct (k x); try discriminate.
  - destruct V as (m & E & L); congruence.
  - destruct V as [E|(m & E & L)]; congruence.
Qed.

Lemma look_put : forall t x v y, look (put_known t x v) y = if String.eqb y x then v else look t y.
Proof.
  induction t as [|[z w] t IH]; intros x v y; cbn [put_known look].
  - reflexivity.
  - destruct (String.eqb_spec x z) as [->|N]; cbn [look].
    + destruct (String.eqb y z); reflexivity.
    + rewrite IH; destruct (String.eqb_spec y z) as [->|]; [|reflexivity].
      destruct (String.eqb_spec z x); [congruence | reflexivity].
Qed.

Lemma look_take_out : forall t x y, look (take_out t x) y = if String.eqb y x then KNone else look t y.
Proof.
  induction t as [|[z w] t IH]; intros x y; cbn [take_out look].
  - destruct (String.eqb y x); reflexivity.
  - destruct (String.eqb_spec x z) as [->|N]; cbn [look].
    + rewrite IH; destruct (String.eqb y z); reflexivity.
    + rewrite IH; destruct (String.eqb_spec y z) as [->|]; [|reflexivity].
      destruct (String.eqb_spec z x); [congruence | reflexivity].
Qed.

Lemma fits_ext : forall F k k' h, (forall x, k x = k' x) -> fits F k h -> fits F k' h.
Proof.
  intros F k k' h E [V O A Fr Ap Fs].
  assert (OW : forall x n, owns k' h x n -> owns k h x n) by (intros x n [H1 H2]; split; rewrite ?E; assumption).
  split.
  - intros x; rewrite <- E; apply V.
  - intros x y n H1 H2; apply (O x y n); apply OW; assumption.
  - intros n H; destruct (A n H) as [[x [H1 H2]]|H']; [left; exists x; split; [rewrite <- E|]; assumption | right; exact H'].
  - exact Fr.
  - intros x n H; apply (Ap x n), OW, H.
  - exact Fs.
Qed.

Definition over (k : string -> Known) (x : string) (v : Known) : string -> Known :=
  fun y => if String.eqb y x then v else k y.

(** A variable that owns nothing gets a value that owns nothing. *)
Lemma fits_put : forall F k h x v w, fits F k h -> owner (k x) = false ->
  (v = KNone \/ (v = KNull /\ w = Null)) ->
  fits F (over k x v) (mkHeap (put (h_env h) x w) (h_live h) (h_next h)).
Proof.
  intros F k h x v w [V O A Fr Ap Fs] N E.
  assert (NV : owner v = false) by (destruct E as [->|[-> _]]; reflexivity).
  assert (OW : forall y n, owns (over k x v) (mkHeap (put (h_env h) x w) (h_live h) (h_next h)) y n -> y <> x /\ owns k h y n).
  { intros y n [H1 H2]; unfold over, put in *; cbn [h_env] in *.
    destruct (String.eqb_spec y x); [congruence | split; [assumption | split; assumption]]. }
  split; cbn [h_env h_live h_next].
  - intros y; unfold over, put; destruct (String.eqb y x); [|apply V].
    destruct E as [->|[-> ->]]; [exact I | reflexivity].
  - intros y z n H1 H2; apply OW in H1; apply OW in H2; apply (O y z n); tauto.
  - intros n H; destruct (A n H) as [[y [H1 H2]]|H']; [left; exists y; unfold owns, over, put; cbn [h_env] | right; exact H'].
    destruct (String.eqb_spec y x) as [->|]; [congruence | split; assumption].
  - exact Fr.
  - intros y n H; apply OW in H; apply (Ap y n); tauto.
  - exact Fs.
Qed.

Lemma is_live_in : forall n l, is_live n l = true <-> In n l.
Proof.
  intros n l; unfold is_live; rewrite existsb_exists; split.
  - intros [m [H E]]; apply Nat.eqb_eq in E; subst; exact H.
  - intros H; exists n; split; [exact H | apply Nat.eqb_refl].
Qed.

Lemma fits_new : forall F k h x, fits F k h -> owner (k x) = false ->
  fits F (over k x KOwn) (mkHeap (put (h_env h) x (Ptr (h_next h))) (h_next h :: h_live h) (S (h_next h))).
Proof.
  intros F k h x Ft N; pose proof Ft as [V O A Fr Ap Fs].
  assert (OLD : forall y n, y <> x -> owns (over k x KOwn) (mkHeap (put (h_env h) x (Ptr (h_next h))) (h_next h :: h_live h) (S (h_next h))) y n ->
    owns k h y n /\ In n (h_live h)).
  { intros y n Hy [H1 H2]; unfold over, put in *; cbn [h_env] in *; destruct (String.eqb_spec y x); [contradiction|].
    assert (owns k h y n) by (split; assumption). split; [assumption | exact (owns_live F k h y n Ft H)]. }
  assert (NEW : forall n, owns (over k x KOwn) (mkHeap (put (h_env h) x (Ptr (h_next h))) (h_next h :: h_live h) (S (h_next h))) x n -> n = h_next h).
  { intros n [_ H]; unfold put in H; cbn [h_env] in H; rewrite String.eqb_refl in H; injection H as <-; reflexivity. }
  split; cbn [h_env h_live h_next].
  - intros y; unfold over, put; destruct (String.eqb_spec y x).
    + exists (h_next h); split; [reflexivity | left; reflexivity].
    + specialize (V y); destruct (k y); try exact V; try exact I.
      * destruct V as (m & E & L); exists m; split; [exact E | right; exact L].
      * destruct V as [E|(m & E & L)]; [left; exact E | right; exists m; split; [exact E | right; exact L]].
  - intros y z n H1 H2; destruct (String.eqb_spec y x) as [->|Ny]; destruct (String.eqb_spec z x) as [->|Nz]; try reflexivity.
    + exfalso; destruct (OLD z n Nz H2) as [_ L]; apply Fs in L; apply NEW in H1; lia.
    + exfalso; destruct (OLD y n Ny H1) as [_ L]; apply Fs in L; apply NEW in H2; lia.
    + apply (O y z n); [apply (OLD y n Ny H1) | apply (OLD z n Nz H2)].
  - intros n [<-|H].
    + left; exists x; unfold owns, over, put; cbn [h_env]; rewrite String.eqb_refl; split; reflexivity.
    + destruct (A n H) as [[y [H1 H2]]|H']; [left; exists y; unfold owns, over, put; cbn [h_env] | right; exact H'].
      destruct (String.eqb_spec y x) as [->|]; [congruence | split; assumption].
  - intros n H; right; apply Fr; exact H.
  - intros y n H HF; destruct (String.eqb_spec y x) as [->|Ny].
    + apply NEW in H; apply Fr, Fs in HF; lia.
    + destruct (OLD y n Ny H) as [H' _]; exact (Ap y n H' HF).
  - intros n [<-|H]; [lia | apply Fs in H; lia].
Qed.

(** Deleting what a variable owns. *)
Lemma fits_delete : forall F k h x, fits F k h -> owner (k x) = true ->
  h_env h x = Null /\ fits F (over k x KNone) h \/
  exists n, h_env h x = Ptr n /\ In n (h_live h) /\
    fits F (over k x KNone) (mkHeap (h_env h) (remove Nat.eq_dec n (h_live h)) (h_next h)).
Proof.
  intros F k h x [V O A Fr Ap Fs] N.
  assert (OW : forall h' y n, h_env h' = h_env h -> owns (over k x KNone) h' y n -> y <> x /\ owns k h y n).
  { intros h' y n E [H1 H2]; unfold over in *; rewrite E in H2.
    destruct (String.eqb_spec y x); [discriminate | split; [assumption | split; assumption]]. }
  assert (C : h_env h x = Null \/ exists n, h_env h x = Ptr n /\ In n (h_live h)).
  { specialize (V x); destruct (k x); try discriminate; [right|]; exact V. }
  destruct C as [E|(n & E & L)]; [left | right; exists n]; split; try assumption; [|split; [assumption|]]; split; cbn [h_env h_live h_next].
  - intros y; unfold over; destruct (String.eqb y x); [exact I | apply V].
  - intros y z n H1 H2; apply OW in H1; [|reflexivity]; apply OW in H2; [|reflexivity]; apply (O y z n); tauto.
  - intros n H; destruct (A n H) as [[y [H1 H2]]|H']; [left; exists y; unfold owns, over | right; exact H'].
    destruct (String.eqb_spec y x) as [->|]; [congruence | split; assumption].
  - exact Fr.
  - intros y n H; apply OW in H; [|reflexivity]; apply (Ap y n); tauto.
  - exact Fs.
  - intros y; unfold over; destruct (String.eqb_spec y x) as [|Ny]; [exact I|].
    assert (D : forall m, owner (k y) = true -> h_env h y = Ptr m -> m <> n).
    { intros m Hm Em ->; apply Ny, (O y x n); split; assumption. }
    specialize (V y); destruct (k y); try exact V; try exact I.
    + destruct V as (m & E' & L'); exists m; split; [exact E' | apply in_in_remove; auto].
    + destruct V as [E'|(m & E' & L')]; [left; exact E' | right; exists m; split; [exact E' | apply in_in_remove; auto]].
  - intros y z m H1 H2; apply OW in H1; [|reflexivity]; apply OW in H2; [|reflexivity]; apply (O y z m); tauto.
  - intros m H; apply in_remove in H; destruct H as [H Nm].
    destruct (A m H) as [[y [H1 H2]]|H']; [left; exists y; unfold owns, over; cbn [h_env] | right; exact H'].
    destruct (String.eqb_spec y x) as [->|]; [congruence | split; assumption].
  - intros m H; apply in_in_remove; [|apply Fr; exact H].
    intros ->; apply (Ap x n); [split; assumption | exact H].
  - intros y m H; apply OW in H; [|reflexivity]; apply (Ap y m); tauto.
  - intros m H; apply in_remove in H; apply Fs; tauto.
Qed.

(** Handing over what [y] owns to [x]. *)
Lemma fits_move : forall F k h x y v, fits F k h -> owner (k x) = false -> k y = v -> owner v = true ->
  fits F (over (over k y KNone) x v) (mkHeap (put (h_env h) x (h_env h y)) (h_live h) (h_next h)).
Proof.
  intros F k h x y v [V O A Fr Ap Fs] N Ky Ov.
  assert (NE : x <> y) by (intros ->; congruence).
  set (h' := mkHeap (put (h_env h) x (h_env h y)) (h_live h) (h_next h)).
  set (k' := over (over k y KNone) x v).
  set (back := fun z => if String.eqb z x then y else z).
  assert (OW : forall z n, owns k' h' z n -> owns k h (back z) n /\ (z <> x -> z <> y)).
  { intros z n [H1 H2]; unfold k', h', over, put, back in *; cbn [h_env] in *.
    destruct (String.eqb_spec z x) as [->|Nz].
    - split; [split; [rewrite Ky; exact Ov | exact H2] | intros; contradiction].
    - destruct (String.eqb_spec z y) as [->|Nzy]; [discriminate|]; split; [split; assumption | auto]. }
  split.
  - intros z; unfold k', h', over, put; cbn [h_env h_live]; destruct (String.eqb_spec z x) as [->|Nz].
    + specialize (V y); rewrite Ky in V; exact V.
    + destruct (String.eqb z y); [exact I | apply V].
  - intros z w n H1 H2; destruct (OW z n H1) as [P1 Q1]; destruct (OW w n H2) as [P2 Q2].
    pose proof (O _ _ _ P1 P2) as E; unfold back in E.
    destruct (String.eqb_spec z x) as [->|]; destruct (String.eqb_spec w x) as [->|]; auto.
    + subst w; exfalso; apply Q2; auto.
    + subst z; exfalso; apply Q1; auto.
  - intros n H; destruct (A n H) as [[z [H1 H2]]|H']; [left | right; exact H'].
    destruct (String.eqb_spec z y) as [->|Nz].
    + exists x; unfold owns, k', h', over, put; cbn [h_env]; rewrite String.eqb_refl; split; [exact Ov | exact H2].
    + exists z; unfold owns, k', h', over, put; cbn [h_env].
      destruct (String.eqb_spec z x) as [->|]; [congruence|].
      destruct (String.eqb_spec z y); [contradiction | split; assumption].
  - exact Fr.
  - intros z n H; destruct (OW z n H) as [H' _]; exact (Ap _ n H').
  - exact Fs.
Qed.

(** Weakening. *)
Definition below (v w : Known) : Prop :=
  match v, w with
  | KNull, (KNull | KMaybe | KNone) | KOwn, (KOwn | KMaybe) | KMaybe, KMaybe | KNone, KNone => True
  | _, _ => False
  end.

Lemma fits_below : forall F k k' h, (forall x, below (k x) (k' x)) -> fits F k h -> fits F k' h.
Proof.
  intros F k k' h B [V O A Fr Ap Fs].
  assert (OW : forall x n, owns k' h x n -> owns k h x n).
  { intros x n [H1 H2]; split; [|exact H2]; specialize (B x); specialize (V x).
    destruct (k x), (k' x); cbn in *; try contradiction; try discriminate; try reflexivity. congruence. }
  split.
  - intros x; specialize (B x); specialize (V x); destruct (k x), (k' x); cbn in *; try contradiction; auto.
  - intros x y n H1 H2; apply (O x y n); apply OW; assumption.
  - intros n H; destruct (A n H) as [[x [H1 H2]]|H']; [left; exists x; split; [|exact H2] | right; exact H'].
    specialize (B x); destruct (k x), (k' x); cbn in *; try contradiction; try discriminate; reflexivity.
  - exact Fr.
  - intros x n H; apply (Ap x n), OW, H.
  - exact Fs.
Qed.

Lemma join1_below : forall v w z, join1 v w = Some z -> below v z /\ below w z.
Proof. intros [] [] z H; cbn in H; try discriminate; injection H as <-; cbn; auto. Qed.

Lemma join_below : forall t u r, join t u = Some r -> forall x, below (look t x) (look r x) /\ below (look u x) (look r x).
Proof.
  induction t as [|[a v] t IH]; intros [|[b w] u] r H x; cbn [join] in H; try discriminate.
  - injection H as <-; cbn; auto.
  - destruct (String.eqb_spec a b) as [->|]; [|discriminate].
    destruct (join1 v w) as [z|] eqn:J; [|discriminate]; destruct (join t u) as [r0|] eqn:R; [|discriminate].
    injection H as <-; cbn [look]; destruct (String.eqb x b); [apply join1_below; assumption | apply IH; assumption].
Qed.

Definition fits_some (F : nat -> Prop) (o : option Table) (h : Heap) : Prop :=
  match o with Some t => fits F (look t) h | None => False end.

Lemma merge_left : forall F a b c h, merge a b = Some c -> fits_some F a h -> fits_some F c h.
Proof.
  intros F [t|] [u|] c h H Fh; cbn in *; try contradiction; try (injection H as <-; exact Fh).
  destruct (join t u) as [r|] eqn:J; [|discriminate]; injection H as <-; cbn.
  exact (fits_below _ _ _ _ (fun x => proj1 (join_below _ _ _ J x)) Fh).
Qed.
Lemma merge_right : forall F a b c h, merge a b = Some c -> fits_some F b h -> fits_some F c h.
Proof.
  intros F [t|] [u|] c h H Fh; cbn in *; try contradiction; try (injection H as <-; exact Fh).
  destruct (join t u) as [r|] eqn:J; [|discriminate]; injection H as <-; cbn.
  exact (fits_below _ _ _ _ (fun x => proj2 (join_below _ _ _ J x)) Fh).
Qed.

Definition sound_result (F : nat -> Prop) (o : Outcome) (r : Result) : Prop :=
  match r with
  | Normal h _ => fits_some F (fst o) h
  | Returned h _ => fits_some F (snd o) h
  | Undefined => False
  end.

(** A call of a function: its blocks are new, and those of the caller are left alone. *)
Lemma look_results : forall rs t tr x,
  look (put_results t tr rs) x = if existsb (String.eqb x) rs then look tr x else look t x.
Proof.
  induction rs as [|y rs IH]; intros t tr x; cbn [put_results existsb]; [reflexivity|].
  rewrite look_put, IH; destruct (String.eqb_spec x y) as [->|]; reflexivity.
Qed.

Lemma forallb_owner : forall tr rs, forallb (fun p => negb (owner (snd p)) || existsb (String.eqb (fst p)) rs) tr = true ->
  forall x, owner (look tr x) = true -> existsb (String.eqb x) rs = true.
Proof.
  induction tr as [|[y v] tr IH]; intros rs H x Hx; cbn in *; [discriminate|].
  apply andb_prop in H; destruct H as [H1 H2]; destruct (String.eqb_spec x y) as [E|]; [|exact (IH rs H2 x Hx)].
  subst y; rewrite Hx in H1; exact H1.
Qed.

Lemma fits_results : forall F t tr rs h h',
  fits F (look t) h -> fits (fun n => In n (h_live h)) (look tr) h' ->
  forallb (fun x => negb (owner (look t x))) rs = true ->
  forallb (fun p => negb (owner (snd p)) || existsb (String.eqb (fst p)) rs) tr = true ->
  fits F (look (put_results t tr rs))
    (mkHeap (fun x => if existsb (String.eqb x) rs then h_env h' x else h_env h x) (h_live h') (h_next h')).
Proof.
  intros F t tr rs h h' Ft Ft' N T; pose proof (forallb_owner tr rs T) as OR.
  set (h2 := mkHeap (fun x => if existsb (String.eqb x) rs then h_env h' x else h_env h x) (h_live h') (h_next h')).
  assert (OW : forall x n, owns (look (put_results t tr rs)) h2 x n ->
    (existsb (String.eqb x) rs = true /\ owns (look tr) h' x n) \/ (existsb (String.eqb x) rs = false /\ owns (look t) h x n)).
  { intros x n [H1 H2]; rewrite look_results in H1; cbn [h2 h_env] in H2.
    destruct (existsb (String.eqb x) rs); [left | right]; split; try reflexivity; split; assumption. }
  assert (ON : forall x n, owns (look t) h x n -> existsb (String.eqb x) rs = false).
  { intros x n [H1 _]; destruct (existsb (String.eqb x) rs) eqn:E; [|reflexivity].
    apply existsb_exists in E; destruct E as [y [Hy E]]; apply String.eqb_eq in E; subst y.
    pose proof (proj1 (forallb_forall _ _) N x Hy) as B; cbn in B; rewrite H1 in B; discriminate. }
  split.
  - intros x; rewrite look_results; cbn [h2 h_env h_live]; destruct (existsb (String.eqb x) rs); [apply (fit_value _ _ _ Ft')|].
    pose proof (fit_value _ _ _ Ft x) as V; pose proof (fit_frame _ _ _ Ft') as Fr; destruct (look t x); try exact V.
    + destruct V as (n & E & L); exists n; split; [exact E | apply Fr; exact L].
    + destruct V as [E|(n & E & L)]; [left; exact E | right; exists n; split; [exact E | apply Fr; exact L]].
  - intros x y n H1 H2; destruct (OW x n H1) as [[_ P]|[_ P]], (OW y n H2) as [[_ Q]|[_ Q]].
    + exact (fit_one _ _ _ Ft' x y n P Q).
    + exfalso; exact (fit_apart _ _ _ Ft' x n P (owns_live _ _ _ _ _ Ft Q)).
    + exfalso; exact (fit_apart _ _ _ Ft' y n Q (owns_live _ _ _ _ _ Ft P)).
    + exact (fit_one _ _ _ Ft x y n P Q).
  - intros n H; cbn [h2 h_live] in H; destruct (fit_all _ _ _ Ft' n H) as [[x P]|L].
    + left; exists x; destruct P as [H1 H2]; unfold owns; rewrite look_results; cbn [h2 h_env]; rewrite (OR x H1); split; assumption.
    + destruct (fit_all _ _ _ Ft n L) as [[x P]|L']; [left; exists x | right; exact L'].
      unfold owns; rewrite look_results; cbn [h2 h_env]; rewrite (ON x n P); exact P.
  - intros n H; cbn [h2 h_live]; apply (fit_frame _ _ _ Ft'), (fit_frame _ _ _ Ft), H.
  - intros x n H HF; destruct (OW x n H) as [[_ P]|[_ P]].
    + exact (fit_apart _ _ _ Ft' x n P (fit_frame _ _ _ Ft n HF)).
    + exact (fit_apart _ _ _ Ft x n P HF).
  - exact (fit_fresh _ _ _ Ft').
Qed.

(** Induction over statements. *)
Section Induction.
  Variable Q : Stm -> Prop.
  Hypothesis simple : forall s, match s with Either _ _ | Call _ => True | _ => Q s end.
  Hypothesis either : forall a b, List.Forall Q a -> List.Forall Q b -> Q (Either a b).
  Hypothesis call : forall b, List.Forall Q b -> Q (Call b).
  Fixpoint stm_ind' (s : Stm) : Q s :=
    let all := fix all (l : list Stm) : List.Forall Q l :=
      match l with [] => List.Forall_nil _ | s :: l => List.Forall_cons _ (stm_ind' s) (all l) end in
    match s as s0 return Q s0 with
    | Either a b => either a b (all a) (all b)
    | Call b => call b (all b)
    | Proc f rs => simple (Proc f rs)
    | Declare x => simple (Declare x)
    | SetNull x => simple (SetNull x)
    | New x => simple (New x)
    | Use x => simple (Use x)
    | UseOrNull x => simple (UseOrNull x)
    | Assign x y => simple (Assign x y)
    | Delete x => simple (Delete x)
    | Drop x => simple (Drop x)
    | Return => simple Return
    end.
End Induction.

Lemma look_over : forall t x v y, over (look t) x v y = look (put_known t x v) y.
Proof. intros; rewrite look_put; reflexivity. Qed.

Section Soundness.

Variable call : string -> Heap -> list bool -> Result.
Variable ends : string -> option Table.

(** The functions that can be called do what is known of them. *)
Hypothesis calls_fit : forall f tr, ends f = Some tr -> forall F live next choices,
  fits F (look []) (mkHeap (fun _ => Uninit) live next) ->
  match call f (mkHeap (fun _ => Uninit) live next) choices with
  | Normal h _ | Returned h _ => fits F (look tr) h
  | Undefined => False
  end.

Definition sound (s : Stm) : Prop := forall F t h choices o,
  check ends s t = Some o -> fits F (look t) h -> sound_result F o (exec call s h choices).

Lemma sound_list : forall l, List.Forall sound l -> forall F t h choices o,
  check_list (check ends) l t = Some o -> fits F (look t) h -> sound_result F o (exec_list (exec call) l h choices).
Proof.
  intros l H; induction H as [|s l Hs Hl IH]; intros F t h choices o C Ft; cbn in C |- *.
  - injection C as <-; exact Ft.
  - destruct (check ends s t) as [[[t'|] r]|] eqn:E; try discriminate.
    + specialize (Hs F t h choices _ E Ft); fold (check_list (check ends) l t') in C.
      destruct (check_list (check ends) l t') as [[n r']|] eqn:E'; [|discriminate].
      destruct (merge r r') as [r''|] eqn:M; [|discriminate]; injection C as <-.
      destruct (exec call s h choices) as [h' c'|h' c'|]; cbn in Hs |- *.
      * specialize (IH F t' h' c' _ E' Hs); fold (exec_list (exec call) l h' c').
        destruct (exec_list (exec call) l h' c'); cbn in *; [exact IH | exact (merge_right _ _ _ _ _ M IH) | exact IH].
      * exact (merge_left _ _ _ _ _ M Hs).
      * exact Hs.
    + injection C as <-; specialize (Hs F t h choices _ E Ft).
      destruct (exec call s h choices) as [h' c'|h' c'|]; cbn in Hs |- *; [contradiction | exact Hs | exact Hs].
Qed.

Lemma check_sound : forall s, sound s.
Proof.
  apply stm_ind'.
  - intros [x|x|x|x|x|x y|x|x|a b|b|f rs|]; try exact I; intros F t h choices o C Ft; cbn [check] in C; cbn [exec].
    + destruct (owner (look t x)) eqn:N; [discriminate|]; injection C as <-; cbn.
      eapply fits_ext; [intros z; apply look_over | apply fits_put; auto].
    + destruct (owner (look t x)) eqn:N; [discriminate|]; injection C as <-; cbn.
      eapply fits_ext; [intros z; apply look_over | apply fits_put; auto].
    + destruct (owner (look t x)) eqn:N; [discriminate|]; injection C as <-; cbn.
      eapply fits_ext; [intros z; apply look_over | apply fits_new; auto].
    + destruct (look t x) eqn:K; try discriminate; injection C as <-.
      pose proof (fit_value _ _ _ Ft x) as V; rewrite K in V; destruct V as (n & -> & L); apply is_live_in in L; rewrite L; exact Ft.
    + pose proof (fit_value _ _ _ Ft x) as V; destruct (look t x) eqn:K; try discriminate; injection C as <-.
      * rewrite V; exact Ft.
      * destruct V as (n & -> & L); apply is_live_in in L; rewrite L; exact Ft.
      * destruct V as [->|(n & -> & L)]; [exact Ft | apply is_live_in in L; rewrite L; exact Ft].
    + destruct (owner (look t x)) eqn:N; [discriminate|].
      pose proof (fit_value _ _ _ Ft y) as V; destruct (look t y) eqn:K; try discriminate; injection C as <-.
      * rewrite V; cbn; eapply fits_ext; [intros z; apply look_over | apply fits_put; auto].
      * assert (M : fits F (look (put_known (put_known t y KNone) x KOwn)) (mkHeap (put (h_env h) x (h_env h y)) (h_live h) (h_next h))).
        { eapply fits_ext; [|apply (fits_move F (look t) h x y KOwn); auto].
          intros z; rewrite <- look_over; unfold over; rewrite look_put; reflexivity. }
        destruct V as (n & E & _); rewrite E in M |- *; exact M.
      * assert (M : fits F (look (put_known (put_known t y KNone) x KMaybe)) (mkHeap (put (h_env h) x (h_env h y)) (h_live h) (h_next h))).
        { eapply fits_ext; [|apply (fits_move F (look t) h x y KMaybe); auto].
          intros z; rewrite <- look_over; unfold over; rewrite look_put; reflexivity. }
        destruct V as [E|(n & E & _)]; rewrite E in M |- *; exact M.
    + pose proof (fit_value _ _ _ Ft x) as V; destruct (look t x) eqn:K; try discriminate; injection C as <-.
      * rewrite V; exact Ft.
      * destruct (fits_delete _ _ _ x Ft) as [[E _]|(n & E & L & G)]; [rewrite K; reflexivity | destruct V as (n & V & _); congruence |].
        rewrite E; apply is_live_in in L; rewrite L; cbn; eapply fits_ext; [intros z; apply look_over | exact G].
      * destruct (fits_delete _ _ _ x Ft) as [[E G]|(n & E & L & G)]; [rewrite K; reflexivity | |].
        -- rewrite E; cbn; eapply fits_ext; [intros z; apply look_over | exact G].
        -- rewrite E; apply is_live_in in L; rewrite L; cbn; eapply fits_ext; [intros z; apply look_over | exact G].
    + destruct (owner (look t x)) eqn:N; [discriminate|]; injection C as <-; cbn.
      eapply fits_ext; [|apply (fits_put F (look t) h x KNone); auto].
      intros z; rewrite look_take_out; reflexivity.
    + destruct (ends f) as [tr|] eqn:E; [|discriminate].
      destruct (forallb (fun x => negb (owner (look t x))) rs && _) eqn:B in C; [|discriminate]; injection C as <-.
      apply andb_prop in B; destruct B as [B1 B2].
      assert (F0 : fits (fun n => In n (h_live h)) (look []) (mkHeap (fun _ => Uninit) (h_live h) (h_next h))).
      { split; cbn; auto; try (intros; match goal with H : owns _ _ _ _ |- _ => destruct H; discriminate end). exact (fit_fresh _ _ _ Ft). }
      pose proof (calls_fit f tr E _ _ _ choices F0) as S.
      destruct (call f (mkHeap (fun _ => Uninit) (h_live h) (h_next h)) choices) as [h' c|h' c|]; [| |contradiction];
        cbn; apply fits_results; assumption.
    + injection C as <-; exact Ft.
  - intros a b Ha Hb F t h choices o C Ft; cbn [check] in C.
    destruct (check_list (check ends) a t) as [[n r]|] eqn:Ea; [|discriminate].
    destruct (check_list (check ends) b t) as [[n' r']|] eqn:Eb; [|discriminate].
    destruct (merge n n') as [m|] eqn:M1; [|discriminate]; destruct (merge r r') as [m'|] eqn:M2; [|discriminate]; injection C as <-.
    assert (A : forall c, sound_result F (m, m') (exec_list (exec call) a h c)).
    { intros c; pose proof (sound_list a Ha F t h c _ Ea Ft) as S.
      destruct (exec_list (exec call) a h c); cbn in *; [exact (merge_left _ _ _ _ _ M1 S) | exact (merge_left _ _ _ _ _ M2 S) | exact S]. }
    assert (B : forall c, sound_result F (m, m') (exec_list (exec call) b h c)).
    { intros c; pose proof (sound_list b Hb F t h c _ Eb Ft) as S.
      destruct (exec_list (exec call) b h c); cbn in *; [exact (merge_right _ _ _ _ _ M1 S) | exact (merge_right _ _ _ _ _ M2 S) | exact S]. }
    cbn [exec]; destruct choices as [|[|] choices]; auto.
  - intros b Hb F t h choices o C Ft; cbn [check] in C.
    destruct (check_list (check ends) b t) as [[n r]|] eqn:Eb; [|discriminate].
    destruct (merge n r) as [m|] eqn:M; [|discriminate]; injection C as <-.
    pose proof (sound_list b Hb F t h choices _ Eb Ft) as S; cbn [exec].
    destruct (exec_list (exec call) b h choices); cbn in *; [exact (merge_left _ _ _ _ _ M S) | exact (merge_right _ _ _ _ _ M S) | exact S].
Qed.

Lemma at_end_sound : forall body tr, at_end ends body = Some tr -> forall F h choices, fits F (look []) h ->
  match exec_list (exec call) body h choices with
  | Normal h _ | Returned h _ => fits F (look tr) h
  | Undefined => False
  end.
Proof.
  intros body tr E F h choices F0; unfold at_end in E.
  destruct (check_list (check ends) body []) as [[n r]|] eqn:C; [|discriminate].
  destruct (merge n r) as [o|] eqn:M; [|discriminate]; subst o.
  assert (A : List.Forall sound body) by (apply List.Forall_forall; intros; apply check_sound).
  pose proof (sound_list body A F [] h choices _ C F0) as S.
  destruct (exec_list (exec call) body h choices); cbn in *;
    [exact (merge_left F _ _ _ _ M S) | exact (merge_right F _ _ _ _ M S) | exact S].
Qed.

End Soundness.

Lemma no_owner_look : forall t x, no_owner t = true -> owner (look t x) = false.
Proof.
  induction t as [|[y v] t IH]; intros x H; cbn in *; [reflexivity|].
  apply andb_prop in H; destruct H as [H1 H2]; destruct (String.eqb x y); [destruct (owner v); [discriminate | reflexivity] | apply IH; exact H2].
Qed.

Lemma no_owner_empty : forall t h, no_owner t = true -> fits (fun _ => False) (look t) h -> h_live h = [].
Proof.
  intros t h N [_ _ A _ _ _]; destruct (h_live h) as [|n l] eqn:E; [reflexivity|].
  destruct (A n (or_introl eq_refl)) as [[x [H _]]|[]]; rewrite no_owner_look in H by exact N; discriminate.
Qed.

Definition ends_of (l : list (string * Table)) (f : string) : option Table :=
  match find (fun p => String.eqb f (fst p)) l with Some p => Some (snd p) | None => None end.

(** A program with a function that calls a function. *)
Theorem clean_sound : forall f1 b1 t1 f2 b2 t2 p choices,
  at_end (fun _ => None) b1 = Some t1 -> at_end (ends_of [(f1, t1)]) b2 = Some t2 -> clean (ends_of [(f2, t2)]) p = true ->
  exists h rest,
    (run_program [(f2, b2); (f1, b1)] p choices = Normal h rest \/ run_program [(f2, b2); (f1, b1)] p choices = Returned h rest) /\
    h_live h = [].
Proof.
  intros f1 b1 t1 f2 b2 t2 p choices E1 E2 C; unfold clean in C.
  destruct (at_end (ends_of [(f2, t2)]) p) as [t|] eqn:E3; [|discriminate].
  assert (F0 : fits (fun _ => False) (look []) (mkHeap (fun _ => Uninit) [] 0)).
  { split; cbn; auto; try contradiction; intros; match goal with H : owns _ _ _ _ |- _ => destruct H; discriminate end. }
  pose proof (at_end_sound (calls [(f2, b2); (f1, b1)]) (ends_of [(f2, t2)])) as S3.
  assert (C3 : forall f tr, ends_of [(f2, t2)] f = Some tr -> forall F live next choices,
    fits F (look []) (mkHeap (fun _ => Uninit) live next) ->
    match calls [(f2, b2); (f1, b1)] f (mkHeap (fun _ => Uninit) live next) choices with
    | Normal h _ | Returned h _ => fits F (look tr) h
    | Undefined => False
    end).
  { intros f tr H F live next c Ft; unfold ends_of in H; cbn [find fst snd] in H; cbn [calls].
    destruct (String.eqb f f2); [injection H as <- | discriminate].
    refine (at_end_sound (calls [(f1, b1)]) (ends_of [(f1, t1)]) _ b2 t2 E2 F _ c Ft).
    intros g tr H F' live' next' c' Ft'; unfold ends_of in H; cbn [find fst snd] in H; cbn [calls].
    destruct (String.eqb g f1); [injection H as <- | discriminate].
    refine (at_end_sound (calls []) (fun _ => None) _ b1 t1 E1 F' _ c' Ft').
    discriminate. }
  specialize (S3 C3 p t E3 _ _ choices F0); unfold run_program.
  destruct (exec_list (exec (calls [(f2, b2); (f1, b1)])) p _ choices) as [h c|h c|]; [| |contradiction]; exists h, c;
    (split; [auto | exact (no_owner_empty t h C S3)]).
Qed.
