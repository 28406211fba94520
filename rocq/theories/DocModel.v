(** Documents with object identity: the Tags of Beautiful Soup (bs4 4.12.2) and the
    operations of it that move them, as used by /repo/sangfroid/layer/*.py.

    Every Tag has a number of its own, as id() would give. A forest is all the
    trees there are: the document, and the tags that are not in it (a
    new layer, say). The numbers in a forest are all different. Strings
    don't need an identity here. *)
From Verif Require Export XmlModel.
From Coq Require Import Lia.

Inductive inode : Type :=
| IT (x : pstr)
| IE (u : N) (name : pstr) (a : attrs) (kids : list inode).

Definition forest := list inode.

(** The tree without the identities *)
Fixpoint forget (n : inode) : node :=
  match n with
  | IT x => Txt x
  | IE _ nm a k => El nm a (map forget k)
  end.

Definition itag (n : inode) : bool := match n with IE _ _ _ _ => true | IT _ => false end.
Definition iname (n : inode) : pstr := match n with IE _ nm _ _ => nm | IT _ => [] end.
Definition iattrs (n : inode) : attrs := match n with IE _ _ a _ => a | IT _ => [] end.
Definition iuid (n : inode) : N := match n with IE u _ _ _ => u | IT _ => 0%N end.
Definition ikids (n : inode) : list inode := match n with IE _ _ _ k => k | IT _ => [] end.
Definition is_ (u : N) (n : inode) : bool := match n with IE v _ _ _ => N.eqb u v | IT _ => false end.

(** All numbers in a tree, in document order *)
Fixpoint uids (n : inode) : list N :=
  match n with
  | IT _ => []
  | IE u _ _ k => u :: flat_map uids k
  end.
Definition fuids (F : forest) : list N := flat_map uids F.

(** All Tags strictly below, in document order ([tag.descendants], for Tags) *)
Fixpoint idesc (n : inode) : list inode :=
  match n with
  | IT _ => []
  | IE _ _ _ k => flat_map (fun c => match c with IT _ => [] | IE _ _ _ _ => c :: idesc c end) k
  end.
(** [tag.find_all(p)], [tag.find_all(p, recursive=False)], [tag.find(p)] *)
Definition ifind_all (p : inode -> bool) (n : inode) : list inode := filter p (idesc n).
Definition ifind_children (p : inode -> bool) (n : inode) : list inode := filter p (filter itag (ikids n)).
Definition ifind (p : inode -> bool) (n : inode) : option inode := hd_error (ifind_all p n).

(** The tag with the number u, and its ancestors, nearest first *)
Definition first_some {A B} (f : A -> option B) : list A -> option B :=
  fix go l := match l with [] => None | x :: l' => match f x with Some y => Some y | None => go l' end end.
Fixpoint iget (u : N) (n : inode) : option inode :=
  match n with
  | IT _ => None
  | IE v _ _ k => if N.eqb u v then Some n else first_some (iget u) k
  end.
Definition fget (u : N) (F : forest) : option inode := first_some (iget u) F.
Fixpoint ianc (u : N) (n : inode) : option (list inode) :=
  match n with
  | IT _ => None
  | IE v _ _ k => if N.eqb u v then Some [] else option_map (fun l => l ++ [n]) (first_some (ianc u) k)
  end.
Definition fanc (u : N) (F : forest) : option (list inode) := first_some (ianc u) F.
(** [tag.parent] *)
Definition fparent (u : N) (F : forest) : option inode :=
  match fanc u F with Some (p :: _) => Some p | _ => None end.

(** Without the tag u *)
Fixpoint idel (u : N) (n : inode) : inode :=
  match n with
  | IT x => IT x
  | IE v nm a k => IE v nm a (flat_map (fun c => if is_ u c then [] else [idel u c]) k)
  end.
Definition kdel (u : N) (k : list inode) : list inode := flat_map (fun c => if is_ u c then [] else [idel u c]) k.
Definition fdel (u : N) (F : forest) : forest := kdel u F.

(** [l.insert(i, x)] for 0 <= i *)
Fixpoint insert_nth {A} (i : nat) (x : A) (l : list A) : list A :=
  match i, l with
  | O, _ => x :: l
  | S i', y :: l' => y :: insert_nth i' x l'
  | S _, [] => [x]
  end.

(** With the tag u itself changed by f *)
Fixpoint iat (u : N) (f : inode -> inode) (n : inode) : inode :=
  match n with
  | IT x => IT x
  | IE v nm a k => if N.eqb u v then f n else IE v nm a (map (iat u f) k)
  end.
Definition fat (u : N) (f : inode -> inode) (F : forest) : forest := map (iat u f) F.
Definition with_ikids (g : list inode -> list inode) (n : inode) : inode :=
  match n with IE v nm a k => IE v nm a (g k) | IT x => IT x end.
Definition with_iattrs (g : attrs -> attrs) (n : inode) : inode :=
  match n with IE v nm a k => IE v nm (g a) k | IT x => IT x end.

(** A tree just made: its tags get the numbers u, u+1, ... *)
Fixpoint label (u : N) (n : node) : inode * N :=
  match n with
  | Txt x => (IT x, u)
  | El nm a k =>
      let (k', u') := (fix go (u : N) (l : list node) : list inode * N :=
                         match l with
                         | [] => ([], u)
                         | c :: l' => let (c', u1) := label u c in
                                      let (r, u2) := go u1 l' in (c' :: r, u2)
                         end) (N.succ u) k in
      (IE u nm a k', u')
  end.
Fixpoint label_all (u : N) (l : list node) : list inode * N :=
  match l with
  | [] => ([], u)
  | c :: l' => let (c', u1) := label u c in let (r, u2) := label_all u1 l' in (c' :: r, u2)
  end.
(** A number no tag has *)
Definition fresh (F : forest) : N := N.succ (fold_right N.max 0%N (fuids F)).

(** The index of the child u *)
Fixpoint index_of (u : N) (k : list inode) : option nat :=
  match k with
  | [] => None
  | c :: k' => if is_ u c then Some O else option_map S (index_of u k')
  end.

Definition change := (forest * res unit)%type.

(** bs4 [p.insert(i, u)] when u is not in the tree any more: [n] is its tag. If p was
    inside u, bs4 makes a cycle: that isn't modelled, and gives F0, the forest before. *)
Definition put_in (F0 F : forest) (p : N) (i : nat) (n : inode) : change :=
  match fget p F with
  | Some _ => (fat p (with_ikids (insert_nth i n)) F, Ok tt)
  | None => (F0, Err EUnmodelled)
  end.

(** bs4 [p.insert(i, u)]: the tag u moves *)
Definition tag_insert (F : forest) (p : N) (i : nat) (u : N) : change :=
  if N.eqb u p then (F, Err ValueError)
  else match fget u F, fget p F with
       | Some n, Some pn =>
           let i := Nat.min i (length (ikids pn)) in
           let i := match index_of u (ikids pn) with
                    | Some j => if Nat.ltb j i then pred i else i
                    | None => i
                    end in
           put_in F (fdel u F) p i n
       | _, _ => (F, Err EUnmodelled)
       end.
(** bs4 [p.append(u)] *)
Definition tag_append (F : forest) (p u : N) : change :=
  match fget p F with
  | Some pn => tag_insert F p (length (ikids pn)) u
  | None => (F, Err EUnmodelled)
  end.

(** bs4 [b.insert_before(u)] and [b.insert_after(u)]: u is extracted first. [off] is 0 or 1. *)
Definition insert_beside (off : nat) (F : forest) (b u : N) : change :=
  match fparent b F with
  | None => (F, Err ValueError)
  | Some (IE p _ _ _) =>
      if N.eqb u b then (F, Err ValueError)
      else match fget u F with
           | None => (F, Err EUnmodelled)
           | Some n =>
               let F1 := fdel u F in
               match fget p F1 with
               | None => (F, Err EUnmodelled)
               | Some pn => match index_of b (ikids pn) with
                            | Some j => put_in F F1 p (off + j) n
                            | None => (F, Err EUnmodelled)
                            end
               end
           end
  | Some (IT _) => (F, Err EUnmodelled)
  end.
Definition insert_before (F : forest) (b u : N) : change := insert_beside 0 F b u.
Definition insert_after (F : forest) (b u : N) : change := insert_beside 1 F b u.
(** [b.insert_after("...")] with a string *)
Definition insert_text_after (F : forest) (b : N) (x : pstr) : change :=
  match fparent b F with
  | None => (F, Err ValueError)
  | Some pn => match index_of b (ikids pn), pn with
               | Some j, IE p _ _ _ => put_in F F p (S j) (IT x)
               | _, _ => (F, Err EUnmodelled)
               end
  end.

(** bs4 [o.replace_with(u)]: o is left on its own, u takes its place. *)
Definition replace_with (F : forest) (o u : N) : change :=
  match fparent o F with
  | None => (F, Err ValueError)
  | Some (IE p _ _ k) =>
      if N.eqb o u then (F, Ok tt)
      else if N.eqb u p then (F, Err ValueError)
      else match index_of o k, fget o F with
           | Some j, Some n => tag_insert (fdel o F ++ [n]) p j u
           | _, _ => (F, Err EUnmodelled)
           end
  | Some (IT _) => (F, Err EUnmodelled)
  end.

(** An induction principle that reaches the children. *)
Definition inode_ind' (P : inode -> Prop)
  (Htxt : forall x, P (IT x))
  (Hel : forall u nm a k, Forall P k -> P (IE u nm a k)) : forall n, P n :=
  fix F n := match n with
    | IT x => Htxt x
    | IE u nm a k => Hel u nm a k ((fix G l : Forall P l :=
        match l with [] => Forall_nil P | c :: l' => Forall_cons c (F c) (G l') end) k)
    end.
