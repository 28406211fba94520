(** Comparing vectors and transformations with tuples and dictionaries. *)
From Coq Require Import Lia Permutation.
From Verif Require Import TlModel ValProofs ValProofs2 WrProofs ViewModel ViewSpec ViewProofs.
Local Open Scope Z_scope.

Lemma float_eq_number x v q : number_is v q -> exists r, float_eq x v = Ok r /\ (r = true <-> x == q)%Q.
Proof. intros [->|[(z & -> & ->)|(b & -> & ->)]]; (eexists; split; [reflexivity|]); apply Qeq_bool_iff. Qed.
Lemma both_numbers la l : forall lq, Forall2 number_is l lq -> length la = length lq -> exists r, both float_eq la l = Ok r /\ (r = true <-> Forall2 Qeq la lq).
Proof.
  unfold both. revert l. induction la as [|x la IH]; intros l lq F L.
  - destruct F; [|discriminate]. exists true. split; [reflexivity|]. split; auto.
  - destruct F as [|v q l lq Hv F]; [discriminate|]. injection L as L. destruct (IH l lq F L) as (r & E & Hr). cbn [combine]. set (f := fun ab : Q * pyval => float_eq (fst ab) (snd ab)) in *. cbn [mapM].
    destruct (float_eq_number x v q Hv) as (b & Eb & Hb). unfold f at 1. cbn [fst snd]. rewrite Eb. cbn [bind]. apply bind_ok in E as (bs & Es & E). rewrite Es. cbn [bind forallb]. injection E as E. eexists. split; [reflexivity|].
    rewrite andb_true_iff, E, Hr, Hb. split; [intros []; now constructor|inversion 1; auto].
Qed.
Lemma vec_eq_numbers a la l lq : reads a la -> Forall2 number_is l lq -> exists r, vec_eq a (PTuple l) = Ok r /\ vec_eq a (PList l) = Ok r /\ (r = true <-> Forall2 Qeq la lq).
Proof.
  intros Ha F. pose proof (reads_length a la Ha) as La. assert (Lq := Forall2_len _ _ _ F). unfold vec_eq. cbn [py_len py_iter].
  destruct (Z.eqb_spec (Z.of_nat (length l)) (Z.of_nat (length (vector_dict a)))) as [E|E]; cbn [negb].
  - apply Nat2Z.inj in E. rewrite Ha. cbn [bind]. destruct la as [|x la].
    + exists true. split; [reflexivity|]. split; [reflexivity|]. destruct lq as [|y lq]; [split; auto|]. cbn [length] in La, Lq. exfalso. clear - La Lq E. lia.
    + destruct (both_numbers (x :: la) l lq F) as (r & Er & Hr); [lia|]. exists r. auto.
  - exists false. split; [reflexivity|]. split; [reflexivity|]. split; [discriminate|]. intros G. apply Forall2_len in G. exfalso. apply E. lia.
Qed.

Lemma trans_eq_other n cx other o1 o2 a w s1 s2 (P1 P2 P3 P4 : Prop) : trans_reads n cx o1 o2 a w s1 s2 -> py_items other <> None -> py_len other = Ok 4 ->
  (forall m, plain_xy m o1 o2 -> exists o r, py_getitem other (s "offset") = Ok o /\ item_eq o (PVal VXY m cx) = Ok r /\ (r = true <-> P1)) ->
  (forall m, simple_val VAngle m cx = Ok (PFlo a) -> exists o r, py_getitem other (s "angle") = Ok o /\ item_eq o (PVal VAngle m cx) = Ok r /\ (r = true <-> P2)) ->
  (forall m, simple_val VAngle m cx = Ok (PFlo w) -> exists o r, py_getitem other (s "skew_angle") = Ok o /\ item_eq o (PVal VAngle m cx) = Ok r /\ (r = true <-> P3)) ->
  (forall m, plain_xy m s1 s2 -> exists o r, py_getitem other (s "scale") = Ok o /\ item_eq o (PVal VXY m cx) = Ok r /\ (r = true <-> P4)) ->
  exists r, trans_eq n cx other = Ok r /\ (r = true <-> P1 /\ P2 /\ P3 /\ P4).
Proof.
  intros [Kn On An Wn Sn] I L H1 H2 H3 H4. destruct (trans_fields n cx Kn) as (d & Ed & Kd & Hd).
  { intros k. cbn. destruct On as (? & ? & _), An as (? & ? & _), Wn as (? & ? & _), Sn as (? & ? & _). intros [<-|[<-|[<-|[<-|[]]]]]; eauto. }
  set (R := fun k => (k = s "offset" -> P1) /\ (k = s "angle" -> P2) /\ (k = s "skew_angle" -> P3) /\ (k = s "scale" -> P4)).
  destruct On as (mo & Eo & Po), An as (ma & Ea & Pa), Wn as (mw & Ew & Pw), Sn as (ms & Es & Ps).
  destruct (items_spec other R d) as (r & Er & Hr).
  { intros k v Hk. pose proof (Hd k v Hk) as Hv. assert (Hin : In k (map fst transformation_keys)) by (apply (Permutation_in _ Kn); rewrite <- Kd; now apply (in_map fst _ (k, v))). unfold R.
    cbn [map fst transformation_keys In] in Hin. destruct Hin as [<-|[<-|[<-|[<-|[]]]]].
    - rewrite Eo in Hv. injection Hv as <-. destruct (H1 mo Po) as (o & r & E1 & E2 & E3). exists o, r. split; [exact E1|]. split; [exact E2|]. rewrite E3. split; [intros E; repeat split; try discriminate; tauto|intros (E & _); now apply E].
    - rewrite Ea in Hv. injection Hv as <-. destruct (H2 ma Pa) as (o & r & E1 & E2 & E3). exists o, r. split; [exact E1|]. split; [exact E2|]. rewrite E3. split; [intros E; repeat split; try discriminate; tauto|intros (_ & E & _); now apply E].
    - rewrite Ew in Hv. injection Hv as <-. destruct (H3 mw Pw) as (o & r & E1 & E2 & E3). exists o, r. split; [exact E1|]. split; [exact E2|]. rewrite E3. split; [intros E; repeat split; try discriminate; tauto|intros (_ & _ & E & _); now apply E].
    - rewrite Es in Hv. injection Hv as <-. destruct (H4 ms Ps) as (o & r & E1 & E2 & E3). exists o, r. split; [exact E1|]. split; [exact E2|]. rewrite E3. split; [intros E; repeat split; try discriminate; tauto|intros (_ & _ & _ & E); now apply E]. }
  exists r. split.
  - unfold trans_eq. destruct (py_items other); [|congruence]. rewrite L. cbn [bind]. assert (Ln : Z.of_nat (length (child_tags n)) = 4).
    { pose proof (Permutation_length Kn) as L1. unfold composite_keys in L1. rewrite map_length in L1. rewrite L1. reflexivity. }
    rewrite Ln. cbn [negb Z.eqb Pos.eqb]. unfold composite_items. rewrite Ed. exact Er.
  - rewrite Hr. rewrite Kd. split.
    + intros H. assert (H' : forall k, In k (map fst transformation_keys) -> R k) by (intros k Hk; apply H; now apply (Permutation_in _ (Permutation_sym Kn))).
      assert (I1 : R (s "offset")) by (apply H'; now left). assert (I2 : R (s "angle")) by (apply H'; right; now left). assert (I3 : R (s "skew_angle")) by (apply H'; do 2 right; now left). assert (I4 : R (s "scale")) by (apply H'; do 3 right; now left).
      split; [now apply I1|]. split; [now apply I2|]. split; [now apply I3|now apply I4].
    + intros (G1 & G2 & G3 & G4) k _. unfold R. auto.
Qed.
Lemma angle_float m cx q z : simple_val VAngle m cx = Ok (PFlo q) -> (exists r, item_eq (PFlo z) (PVal VAngle m cx) = Ok r /\ (r = true <-> (q == z)%Q)).
Proof. intros E. cbn [item_eq flat_eq simple_eq is_instance py_float conv_or_keep bind]. rewrite E. cbn [bind]. eexists. split; [reflexivity|]. apply Qeq_bool_iff. Qed.
Lemma vector_pair m cx x y u v z w : plain_xy m x y -> number_is u z -> number_is v w -> (exists r, item_eq (PTuple [u; v]) (PVal VXY m cx) = Ok r /\ (r = true <-> (x == z /\ y == w)%Q)).
Proof.
  intros P U V. destruct (plain_reads _ _ _ P) as (R & _). destruct (vec_eq_numbers m [x; y] [u; v] [z; w] R) as (r & E & _ & H); [constructor; [exact U|constructor; [exact V|constructor]]|]. exists r. split; [exact E|]. now rewrite H, two_equal.
Qed.
