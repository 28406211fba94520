(** Python basics: exceptions as values, and strings as lists of code points.

    This models the part of Python itself that /repo relies on; it cites the
    Python construct and, where useful, the place in /repo that uses it. *)
From Coq Require Export Ascii String.
From Coq Require Export List ZArith NArith Bool Lia.
Export ListNotations.

(** ** Exceptions *)

(** The Python exception classes that can leave the modelled code.
    [EUnmodelled] is not a Python exception: it marks an input outside the model
    (infinities, NaN, ...); no theorem treats it as a success. *)
Inductive exn : Type :=
| ValueError | TypeError | KeyError | AttributeError | IndexError | NameError
| AssertionError | NotImplementedError | ZeroDivisionError | FileNotFoundError
| UnboundLocalError | EUnmodelled.

Definition exn_eqb (a b : exn) : bool :=
  match a, b with
  | ValueError, ValueError | TypeError, TypeError | KeyError, KeyError
  | AttributeError, AttributeError | IndexError, IndexError | NameError, NameError
  | AssertionError, AssertionError | NotImplementedError, NotImplementedError
  | ZeroDivisionError, ZeroDivisionError | FileNotFoundError, FileNotFoundError
  | UnboundLocalError, UnboundLocalError | EUnmodelled, EUnmodelled => true
  | _, _ => false
  end.

(** The outcome of a Python call: a value, or a raised exception. *)
Inductive res (A : Type) : Type :=
| Ok (a : A)
| Err (e : exn).
Arguments Ok {A} a.
Arguments Err {A} e.

Definition bind {A B} (r : res A) (f : A -> res B) : res B :=
  match r with Ok a => f a | Err e => Err e end.

Notation "'let*' x ':=' r 'in' k" := (bind r (fun x => k))
  (at level 200, x pattern, r at level 100, k at level 200, right associativity).

Definition is_ok {A} (r : res A) : bool := match r with Ok _ => true | Err _ => false end.

(** A list comprehension whose body may raise: the first exception wins. *)
Fixpoint mapM {A B} (f : A -> res B) (l : list A) : res (list B) :=
  match l with
  | [] => Ok []
  | x :: l' => let* y := f x in let* ys := mapM f l' in Ok (y :: ys)
  end.

(** A list comprehension filter whose condition may raise. *)
Fixpoint filterM {A} (f : A -> res bool) (l : list A) : res (list A) :=
  match l with
  | [] => Ok []
  | x :: l' =>
      let* b := f x in
      let* r := filterM f l' in
      Ok (if b then x :: r else r)
  end.

(** ** Strings *)

(** A Python [str]: its code points. *)
Definition pstr := list N.

(** Literal syntax for ASCII strings. *)
Definition s (x : String.string) : pstr := List.map N_of_ascii (list_ascii_of_string x).
Arguments s x%string.

Fixpoint pstr_eqb (a b : pstr) : bool :=
  match a, b with
  | [], [] => true
  | x :: a', y :: b' => N.eqb x y && pstr_eqb a' b'
  | _, _ => false
  end.

Lemma pstr_eqb_spec a b : pstr_eqb a b = true <-> a = b.
Proof.
  revert b; induction a as [|x a IH]; intros [|y b]; simpl; split; intros H;
    try reflexivity; try discriminate.
  - apply andb_true_iff in H as [H1 H2]. apply N.eqb_eq in H1. apply IH in H2. congruence.
  - inversion H; subst. rewrite N.eqb_refl. simpl. now apply IH.
Qed.

Lemma pstr_eqb_refl a : pstr_eqb a a = true.
Proof. now apply pstr_eqb_spec. Qed.

Lemma pstr_eqb_neq a b : pstr_eqb a b = false <-> a <> b.
Proof.
  split; intros H.
  - intros ->. now rewrite pstr_eqb_refl in H.
  - destruct (pstr_eqb a b) eqn:E; auto. apply pstr_eqb_spec in E. contradiction.
Qed.

Lemma pstr_eqb_sym a b : pstr_eqb a b = pstr_eqb b a.
Proof.
  destruct (pstr_eqb a b) eqn:E.
  - apply pstr_eqb_spec in E. subst. symmetry. apply pstr_eqb_refl.
  - apply pstr_eqb_neq in E. symmetry. apply pstr_eqb_neq. congruence.
Qed.

Definition pstr_dec (a b : pstr) : {a = b} + {a <> b} := list_eq_dec N.eq_dec a b.

(** ASCII letters and digits. *)
Definition is_upper (c : N) : bool := (65 <=? c)%N && (c <=? 90)%N.
Definition is_lower (c : N) : bool := (97 <=? c)%N && (c <=? 122)%N.
Definition is_digit (c : N) : bool := (48 <=? c)%N && (c <=? 57)%N.

(** [str.lower()], on ASCII letters only: other code points are left alone
    (simplification, see DESIGN.md). *)
Definition lower_char (c : N) : N := if is_upper c then (c + 32)%N else c.
Definition lower (x : pstr) : pstr := List.map lower_char x.

(** [str.replace(c, '')] for a single character c. *)
Definition remove_char (c : N) (x : pstr) : pstr := List.filter (fun d => negb (N.eqb d c)) x.

(** Python's whitespace (str.isspace), used by [str.strip()] and [float()]. *)
Definition is_space (c : N) : bool :=
  ((9 <=? c)%N && (c <=? 13)%N) || ((28 <=? c)%N && (c <=? 32)%N)
  || (c =? 133)%N || (c =? 160)%N || (c =? 5760)%N
  || ((8192 <=? c)%N && (c <=? 8202)%N)
  || (c =? 8232)%N || (c =? 8233)%N || (c =? 8239)%N || (c =? 8287)%N || (c =? 12288)%N.

Fixpoint lstrip (x : pstr) : pstr :=
  match x with
  | c :: x' => if is_space c then lstrip x' else x
  | [] => []
  end.

Definition rstrip (x : pstr) : pstr := rev (lstrip (rev x)).
Definition strip (x : pstr) : pstr := rstrip (lstrip x).

(** [x.startswith(p)] *)
Fixpoint starts_with (p x : pstr) : bool :=
  match p, x with
  | [], _ => true
  | a :: p', b :: x' => N.eqb a b && starts_with p' x'
  | _ :: _, [] => false
  end.

(** [x.endswith(p)] *)
Definition ends_with (p x : pstr) : bool := starts_with (rev p) (rev x).

(** [p in x] for strings. *)
Fixpoint contains (p x : pstr) : bool :=
  starts_with p x || match x with [] => false | _ :: x' => contains p x' end.

(** [sep.join(l)] *)
Fixpoint join (sep : pstr) (l : list pstr) : pstr :=
  match l with
  | [] => []
  | [x] => x
  | x :: l' => x ++ sep ++ join sep l'
  end.

(** [x[:-1]] and [x[-1]] *)
Definition init_str (x : pstr) : pstr := removelast x.
Definition last_char (x : pstr) : option N :=
  match rev x with [] => None | c :: _ => Some c end.

(** ** Dictionaries with string keys: association lists, insertion order *)

Section Assoc.
  Context {V : Type}.

  (** [d[k] = v]: replaces in place or appends. *)
  Fixpoint aset (k : pstr) (v : V) (d : list (pstr * V)) : list (pstr * V) :=
    match d with
    | [] => [(k, v)]
    | (k', v') :: d' => if pstr_eqb k k' then (k, v) :: d' else (k', v') :: aset k v d'
    end.

  (** [d.get(k)] *)
  Fixpoint aget (k : pstr) (d : list (pstr * V)) : option V :=
    match d with
    | [] => None
    | (k', v') :: d' => if pstr_eqb k k' then Some v' else aget k d'
    end.

  (** [d.pop(k, None)] *)
  Fixpoint adel (k : pstr) (d : list (pstr * V)) : list (pstr * V) :=
    match d with
    | [] => []
    | (k', v') :: d' => if pstr_eqb k k' then d' else (k', v') :: adel k d'
    end.

  (** [dict(list_of_pairs)] *)
  Definition adict (l : list (pstr * V)) : list (pstr * V) :=
    fold_left (fun d kv => aset (fst kv) (snd kv) d) l [].

  Lemma aget_aset k v d k' :
    aget k' (aset k v d) = if pstr_eqb k' k then Some v else aget k' d.
  Proof.
    induction d as [|[k0 v0] d IH]; simpl.
    - destruct (pstr_eqb k' k) eqn:E; auto.
    - destruct (pstr_eqb k k0) eqn:E0; simpl.
      + apply pstr_eqb_spec in E0. subst k0.
        destruct (pstr_eqb k' k); reflexivity.
      + rewrite IH. destruct (pstr_eqb k' k0) eqn:E1; auto.
        destruct (pstr_eqb k' k) eqn:E2; auto.
        apply pstr_eqb_spec in E1, E2. subst. now rewrite pstr_eqb_refl in E0.
  Qed.

  Lemma aget_In k v d : aget k d = Some v -> In (k, v) d.
  Proof.
    induction d as [|[k0 v0] d IH]; simpl; [discriminate|].
    destruct (pstr_eqb k k0) eqn:E.
    - intros [= ->]. apply pstr_eqb_spec in E. subst. now left.
    - intros H. right. auto.
  Qed.

  Lemma aget_None k d : aget k d = None <-> ~ In k (map fst d).
  Proof.
    induction d as [|[k0 v0] d IH]; simpl; [tauto|].
    destruct (pstr_eqb k k0) eqn:E.
    - apply pstr_eqb_spec in E. subst. split; [discriminate|]. intros H. exfalso. apply H. now left.
    - rewrite IH. apply pstr_eqb_neq in E. split.
      + intros H [H1|H1]; [congruence|contradiction].
      + intros H H1. apply H. now right.
  Qed.

  Lemma In_aget k v d : NoDup (map fst d) -> In (k, v) d -> aget k d = Some v.
  Proof.
    induction d as [|[k0 v0] d IH]; simpl; [contradiction|].
    intros Hnd [H|H].
    - inversion H; subst. now rewrite pstr_eqb_refl.
    - inversion Hnd; subst. destruct (pstr_eqb k k0) eqn:E; [|auto].
      apply pstr_eqb_spec in E. subst. exfalso. apply H2. now apply (in_map fst) in H.
  Qed.

  Lemma aset_keys k v d :
    map fst (aset k v d) = if in_dec pstr_dec k (map fst d) then map fst d else map fst d ++ [k].
  Proof.
    induction d as [|[k0 v0] d IH]; cbn [aset map fst].
    - reflexivity.
    - destruct (pstr_eqb k k0) eqn:E.
      + apply pstr_eqb_spec in E. subst k0. cbn [map fst].
        destruct (in_dec pstr_dec k (k :: map fst d)) as [|n]; [reflexivity|].
        exfalso. apply n. now left.
      + cbn [map fst]. rewrite IH. apply pstr_eqb_neq in E.
        destruct (in_dec pstr_dec k (map fst d)) as [i|n];
        destruct (in_dec pstr_dec k (k0 :: map fst d)) as [i'|n']; auto.
        * exfalso. apply n'. now right.
        * destruct i' as [i'|i']; [congruence|contradiction].
  Qed.

  Lemma aset_NoDup k v d : NoDup (map fst d) -> NoDup (map fst (aset k v d)).
  Proof.
    intros H. rewrite aset_keys. destruct (in_dec _ _ _); auto.
    apply NoDup_Add with (a := k) (l := map fst d).
    - pose proof (Add_app k (map fst d) []) as HA. now rewrite app_nil_r in HA.
    - auto.
  Qed.

  Lemma adict_NoDup_aux l : forall d, NoDup (map fst d) ->
    NoDup (map fst (fold_left (fun d kv => aset (fst kv) (snd kv) d) l d)).
  Proof. induction l as [|[k v] l IH]; intros d H; cbn [fold_left]; auto. apply IH, aset_NoDup, H. Qed.

  Lemma adict_NoDup l : NoDup (map fst (adict l)).
  Proof. apply adict_NoDup_aux. constructor. Qed.

  Lemma aget_adict_aux l : forall d k,
    aget k (fold_left (fun d kv => aset (fst kv) (snd kv) d) l d)
    = match aget k (rev l) with Some v => Some v | None => aget k d end.
  Proof.
    induction l as [|[k0 v0] l IH]; intros d k; cbn [fold_left]; auto.
    rewrite IH. cbn [rev fst snd]. rewrite aget_aset.
    assert (HA : forall l1, aget k (l1 ++ [(k0, v0)]) =
              match aget k l1 with Some v => Some v | None => if pstr_eqb k k0 then Some v0 else None end).
    { induction l1 as [|[k1 v1] l1 IH1]; simpl; [reflexivity|].
      destruct (pstr_eqb k k1); auto. }
    rewrite HA. destruct (aget k (rev l)); auto. destruct (pstr_eqb k k0); auto.
  Qed.

  (** Later bindings win. *)
  Lemma aget_adict l k : aget k (adict l) = aget k (rev l).
  Proof. unfold adict. rewrite aget_adict_aux. simpl. now destruct (aget k (rev l)). Qed.

  Lemma adict_id_aux l : forall d, NoDup (map fst (d ++ l)) ->
    fold_left (fun d kv => aset (fst kv) (snd kv) d) l d = d ++ l.
  Proof.
    induction l as [|[k v] l IH]; intros d H; cbn [fold_left].
    - now rewrite app_nil_r.
    - assert (Hs : aset k v d = d ++ [(k, v)]).
      { rewrite map_app in H. cbn [map fst] in H.
        apply NoDup_remove_2 in H.
        assert (Hd : ~ In k (map fst d)) by (intros Hi; apply H; apply in_or_app; now left).
        clear -Hd. induction d as [|[k1 v1] d IHd]; simpl in *; auto.
        destruct (pstr_eqb k k1) eqn:E.
        - apply pstr_eqb_spec in E. subst. exfalso. apply Hd. now left.
        - f_equal. apply IHd. intros Hi; apply Hd; now right. }
      cbn [fst snd]. rewrite Hs, IH; rewrite <- app_assoc; auto.
  Qed.

  Lemma adict_id l : NoDup (map fst l) -> adict l = l.
  Proof. intros H. unfold adict. now rewrite adict_id_aux. Qed.
End Assoc.

(** ** Facts about [mapM] *)

Lemma mapM_ok_Forall2 {A B} (f : A -> res B) l r :
  mapM f l = Ok r -> Forall2 (fun x y => f x = Ok y) l r.
Proof.
  revert r; induction l as [|x l IH]; simpl; intros r H.
  - inversion H; constructor.
  - destruct (f x) eqn:E; simpl in H; [|discriminate].
    destruct (mapM f l) eqn:E2; simpl in H; [|discriminate].
    inversion H; subst. constructor; auto.
Qed.

Lemma mapM_Forall2_ok {A B} (f : A -> res B) l r :
  Forall2 (fun x y => f x = Ok y) l r -> mapM f l = Ok r.
Proof. induction 1 as [|x y l r H _ IH]; simpl; auto. now rewrite H, IH. Qed.

Lemma mapM_length {A B} (f : A -> res B) l r : mapM f l = Ok r -> length r = length l.
Proof.
  intros H. apply mapM_ok_Forall2 in H. induction H as [|x y l r _ _ IH]; simpl; auto.
Qed.

Lemma mapM_app {A B} (f : A -> res B) l1 l2 :
  mapM f (l1 ++ l2) = let* a := mapM f l1 in let* b := mapM f l2 in Ok (a ++ b).
Proof.
  induction l1 as [|x l1 IH]; simpl.
  - destruct (mapM f l2); reflexivity.
  - destruct (f x); simpl; auto. rewrite IH.
    destruct (mapM f l1); simpl; auto. destruct (mapM f l2); reflexivity.
Qed.

Lemma mapM_ext {A B} (f g : A -> res B) l : (forall x, In x l -> f x = g x) -> mapM f l = mapM g l.
Proof.
  induction l as [|x l IH]; simpl; intros H; auto.
  rewrite (H x) by now left. destruct (g x); simpl; auto. rewrite IH; auto.
Qed.

Lemma mapM_map_ok {A B} (f : A -> res B) (g : A -> B) l :
  (forall x, In x l -> f x = Ok (g x)) -> mapM f l = Ok (map g l).
Proof.
  induction l as [|x l IH]; simpl; intros H; auto.
  rewrite (H x) by now left. simpl. rewrite IH; auto.
Qed.
