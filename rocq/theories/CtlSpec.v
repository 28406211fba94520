(** What copying a timeline means. *)
From Verif Require Import TlModel SerModel TlSpec.
Local Open Scope Z_scope.

(** The waypoint at the same number of frames, in a document at g frames per second *)
Definition retimed (g : option Q) (w : wp) : wp :=
  mkW (mkT (at_ w) g) (w_before w) (w_after w) (w_cls w) (w_val w).

(** n frames of a document at p frames per second are so many seconds and frames. This
    is how many frames those are at q frames per second. *)
Definition spelt_again (p q n : Z) : Z := (n / p) * q + n mod p.

(** The waypoint is at n whole frames *)
Definition at_frame (w : wp) (n : Z) : Prop := at_ w = inject_Z n /\ 0 <= n < 2 ^ 53.

(** What is there in a document at q frames per second after saving and loading, of what was
    the waypoint w of a document at p frames per second *)
Inductive comes_back (p q : Z) (w : wp) : wp -> Prop :=
| comes_back_at n : at_frame w n ->
    comes_back p q w (mkW (mkT (inject_Z (spelt_again p q n)) (Some (inject_Z q)))
                          (w_before w) (w_after w) (w_cls w) (reload (w_val w))).
