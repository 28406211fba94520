(** More about the fields of an animation. *)
From Verif Require Import AnimModel AnimProofs5 AnimProps.
Local Open Scope Z_scope.

(** ** C88: the fields one by one *)

(** Each field is kept in the attribute with its own name, as a number or a string, and without it the field has its default. *)
Theorem C88_fields : forall st F n,
  (forall k d, In (k, d) [(s "width", 480); (s "height", 270); (s "antialias", 1)] ->
     (aget k (iattrs n) = None -> anim_get st F n k = Ok (PInt d)) /\
     (forall x, aget k (iattrs n) = Some (AStr x) -> anim_get st F n k = (let* z := parse_int x in Ok (PInt z)))) /\
  (forall k d, In (k, d) [(s "version", rnd64 (12 # 10)); (s "xres", rnd64 (2834645669 # 1000000)); (s "yres", rnd64 (2834645669 # 1000000));
                          (s "gamma_r", 1%Q); (s "gamma_g", 1%Q); (s "gamma_b", 1%Q); (s "fps", 24%Q)] ->
     (aget k (iattrs n) = None -> anim_get st F n k = Ok (PFlo d)) /\
     (forall x, aget k (iattrs n) = Some (AStr x) -> anim_get st F n k = (let* q := parse_float x in Ok (PFlo q)))) /\
  (forall k d, In (k, d) [(s "view_box", s "-4.0 2.25 4.0 -2.25"); (s "bgcolor", s "0.5 0.5 0.5 1.0")] ->
     (aget k (iattrs n) = None -> anim_get st F n k = Ok (PStr d)) /\
     (forall x, aget k (iattrs n) = Some (AStr x) -> anim_get st F n k = Ok (PStr x))).
Proof.
  intros st F n.
  assert (G : forall k ty d, aget k anim_attrs = Some (ty, d) ->
    (aget k (iattrs n) = None -> anim_get st F n k = Ok d) /\ (forall x, aget k (iattrs n) = Some (AStr x) -> anim_get st F n k = attr_conv ty (AStr x))).
  { intros k ty d H. rewrite (anim_get_attr st F n k ty d H). unfold attr_get. split; [intros ->; reflexivity|intros x ->; reflexivity]. }
  assert (R : forall (g : pstr -> option (atype * pyval)) (A : Type) (l : list (pstr * A)) ty (f : A -> pyval), forallb (fun kd => match g (fst kd) with Some (ty', d) => match ty, ty' with TIntA, TIntA | TFloatA, TFloatA | TStrA, TStrA => true | _, _ => false end | None => false end) l = true ->
            map (fun kd => match g (fst kd) with Some (_, d) => d | None => PNone end) l = map (fun kd => f (snd kd)) l ->
            forall k d, In (k, d) l -> g k = Some (ty, f d)).
  { intros g A l ty f B E k d I. induction l as [|[k' d'] l IH]; [destruct I|]. cbn [forallb map fst snd] in B, E. apply andb_prop in B as [B1 B2]. injection E as E1 E2. destruct I as [[= -> ->]|I]; [|exact (IH B2 E2 I)].
    destruct (g k) as [[ty' e]|]; [|discriminate]. rewrite <- E1. destruct ty, ty'; try discriminate; reflexivity. }
  split; [|split]; intros k d I; first [eapply (R (fun k => aget k anim_attrs) Z _ TIntA PInt) in I | eapply (R (fun k => aget k anim_attrs) Q _ TFloatA PFlo) in I | eapply (R (fun k => aget k anim_attrs) pstr _ TStrA PStr) in I].
  1: exact (G k TIntA (PInt d) I).
  3: exact (G k TFloatA (PFlo d) I).
  5: exact (G k TStrA (PStr d) I).
  all: vm_compute; reflexivity.
Qed.
Print Assumptions C88_fields.
(** The fields of the canvas's metadata can neither be read nor set, whatever the file says: nothing of it changes. *)
Theorem C88_metadata_refuted : forall st F n k v, In k [s "background_first_color"; s "background_rendering"; s "background_second_color"; s "background_size";
    s "grid_color"; s "grid_show"; s "grid_size"; s "grid_snap"; s "guide_color"; s "guide_show"; s "guide_snap";
    s "jack_offset"; s "onion_skin"; s "onion_skin_future"; s "onion_skin_keyframes"; s "onion_skin_past"] ->
  anim_get st F n k = Err NotImplementedError /\ anim_set F n k v = (F, Err NotImplementedError).
Proof.
  intros st F n k v I.
  assert (A : forallb (fun k => match aget k anim_attrs with Some _ => false | None => negb (pstr_eqb k (s "end_time") || pstr_eqb k (s "begin_time")
              || existsb (pstr_eqb k) [s "begin_time"; s "name"; s "size"; s "viewbox"; s "framecount"; s "background"; s "keyframes"; s "canvas_tag"]) && existsb (pstr_eqb k) anim_metadata end)
    [s "background_first_color"; s "background_rendering"; s "background_second_color"; s "background_size";
    s "grid_color"; s "grid_show"; s "grid_size"; s "grid_snap"; s "guide_color"; s "guide_show"; s "guide_snap";
    s "jack_offset"; s "onion_skin"; s "onion_skin_future"; s "onion_skin_keyframes"; s "onion_skin_past"] = true) by (vm_compute; reflexivity).
  rewrite forallb_forall in A. apply A in I. unfold anim_get, anim_set. destruct (aget k anim_attrs); [discriminate|]. apply andb_prop in I as [N M].
  apply negb_true_iff in N. apply orb_false_iff in N as [N P]. apply orb_false_iff in N as [N O]. rewrite N, O, P, M. split; reflexivity.
Qed.
Print Assumptions C88_metadata_refuted.
Example C88_fields_nonvacuous : anim_get cls_Group (doc_forest xends) (xroot xends) (s "antialias") = Ok (PInt 1) /\
  anim_get cls_Group (doc_forest (xcanvas [(s "antialias", AStr (s "3"))] [])) (xroot (xcanvas [(s "antialias", AStr (s "3"))] [])) (s "antialias") = Ok (PInt 3).
Proof. split; vm_compute; reflexivity. Qed.
