(** What making words appear means. *)
From Verif Require Import BywModel LaySpec AnimSpec TlSpec.
Local Open Scope Z_scope.

(** ** Words of a text *)

(** p is the beginning of x. *)
Definition prefix (p x : pstr) : Prop := exists r, x = p ++ r.
(** Blanks: space, tab, line feed *)
Definition blank_char (c : N) : Prop := In c [32; 9; 10]%N.

(** p is the beginning of x up to the end of a word: its last character is no blank, and
    a blank or nothing follows it in x. *)
Definition up_to_word (x p : pstr) : Prop :=
  exists q c r, p = q ++ [c] /\ ~ blank_char c /\ x = p ++ r /\ (r = [] \/ exists b r', r = b :: r' /\ blank_char b).
(** ...up to a character that is no space. *)
Definition up_to_letter (x p : pstr) : Prop :=
  exists q c r, p = q ++ [c] /\ is_space c = false /\ x = p ++ r.

(** Each is strictly longer than the one before. *)
Fixpoint growing (l : list pstr) : Prop :=
  match l with
  | a :: (b :: _) as l' => (length a < length b)%nat /\ growing l'
  | _ => True
  end.

(** All the spaces in x are blanks, and it doesn't start with one. *)
Definition plain_words (x : pstr) : Prop :=
  (forall c, In c x -> is_space c = true -> blank_char c) /\ (forall c r, x = c :: r -> ~ blank_char c).
(** x doesn't start with a space, and no two spaces are side by side. *)
Definition single_spaces (x : pstr) : Prop :=
  (forall c r, x = c :: r -> is_space c = false) /\
  (forall q a b r, x = q ++ a :: b :: r -> is_space a = false \/ is_space b = false).

(** ** Times *)

(** Never less than the one before *)
Fixpoint ascending (l : list Q) : Prop :=
  match l with
  | a :: (b :: _) as l' => (a <= b)%Q /\ ascending l'
  | _ => True
  end.

(** The time, in milliseconds, at which the word after l1 should appear, if the pause after a word
    is proportional to the length of the text shown. *)
Definition total_length (l : list pstr) : Z := fold_right Z.add 0 (map (fun x => Z.of_nat (length x)) l).
Definition ideal (start duration : Z) (l1 all : list pstr) : Q :=
  (inject_Z start + inject_Z duration * (inject_Z (total_length l1) / inject_Z (total_length all)))%Q.

(** A line with sensible times: it doesn't begin before zero, nor end before it begins, nor after 49 days; and
    less than 2^40 letters are shown, all words counted. *)
Definition sane_line (start duration : Z) (texts : list pstr) : Prop :=
  (0 <= start /\ 0 <= duration /\ start + duration <= 2 ^ 32)%Z /\ Forall (fun x => x <> []) texts /\ (total_length texts <= 2 ^ 40)%Z.

(** ** Lines and groups *)

(** The first group with this text *)
Definition group_for (gs : list bgroup) (text : pstr) : option bgroup := find (fun g => pstr_eqb text (full_text g)) gs.
(** The texts shown for the words of a group, of all its layers in order *)
Definition shown (letter : bool) (g : bgroup) : list word := flat_map (text_words letter) (bg_texts g).
(** The words a line gives *)
Definition line_words (letter : bool) (gs : list bgroup) (line : Z * Z * pstr) : list word :=
  let '(start, duration, text) := line in
  match group_for gs text with
  | None => []
  | Some g => match timed start duration (shown letter g) with Ok r => r | Err _ => [] end
  end.
(** w is the last of these words at its time. *)
Definition last_at (ws : list word) (w : word) : Prop :=
  exists l1 l2, ws = l1 ++ w :: l2 /\ Forall (fun v => ~ (wd_time v == wd_time w)%Q) l2.

(** ** What a text layer shows *)

(** The value of the string x *)
Definition string_node (x : pstr) : node := El (s "string") [] [Txt x].
(** The text x from the frame q on, until the next waypoint *)
Definition shows (f q : Q) (x : pstr) : wp := mkW (mkT q (Some f)) (s "constant") (s "constant") VString (string_node x).
(** A string that is animated *)
Definition animated_string (l : list wp) : node := El (s "animated") [(s "type", AStr (s "string"))] (map wp_tag l).

(** The value n is a string, and without its animation it is m. *)
Inductive still (cx : ctx) (f : Q) : node -> node -> Prop :=
| still_static n : is_tag n = true -> tag_name n = s "string" -> still cx f n n
| still_animated n w l : is_animated n = true -> timeline_is n cx (Some f) (w :: l) -> has_type n (s "string") -> still cx f n (w_val w).

(** What a layer shows with these words: nothing from the beginning, and each at its time. *)
Definition showing (f : Q) (ws : list word) : list wp :=
  put_all (shows f 0 [] :: map (fun w => shows f (rnd64 (wd_time w * f)) (wd_text w)) ws) [].

(** The text of the layer at u is the tag at v, and that is m. *)
Definition text_at (F : forest) (u v : N) (m : node) : Prop :=
  exists n p x, fget u F = Some n /\ ifind (is_param (s "text")) n = Some p /\ filter itag (ikids p) = [x] /\ iuid x = v /\ forget x = m.
(** Nothing is in both of these tags. *)
Definition apart (F : forest) (u u' : N) : Prop :=
  forall n n' y, fget u F = Some n -> fget u' F = Some n' -> In y (uids n) -> ~ In y (uids n').
(** What is left of a tag when the tags V are emptied *)
Fixpoint hollow (V : list N) (n : inode) : inode :=
  match n with
  | IT x => IT x
  | IE u nm a k => if existsb (N.eqb u) V then IE u [] [] [] else IE u nm a (map (hollow V) k)
  end.

(** All the texts of the groups *)
Definition all_texts (gs : list bgroup) : list btext := flat_map bg_texts gs.
(** No group has the text of the line. *)
Definition unmatched (gs : list bgroup) (line : Z * Z * pstr) : bool := match group_for gs (snd line) with None => true | Some _ => false end.

(** The layers whose group has the text of a line *)
Definition matched (gs : list bgroup) (lines : list (Z * Z * pstr)) : list N :=
  flat_map (fun line => match group_for gs (snd line) with Some g => map bt_layer (bg_texts g) | None => [] end) lines.
(** A time in seconds that is written without an exponent: zero, or from a tenth of a millisecond to thirty million years *)
Definition plain_time (t : Q) : Prop := (t == 0 \/ (1 # 10000) <= t < 1000000000000000)%Q.

(** ** Subtitles *)

(** A line with texts for which its time is enough: it doesn't begin before 0, it ends within 49 days, and the product of its letters,
    all words counted, and of its words is at most 2^18 times its milliseconds. If it begins at 0, it must have half a millisecond for
    each letter. *)
Definition paced (start duration : Z) (texts : list pstr) : Prop :=
  sane_line start duration texts /\ (Z.of_nat (length texts + 1) * total_length texts <= 2 ^ 18 * duration)%Z /\
  (1 <= start \/ total_length texts <= 2 * duration)%Z.
Definition line_paced (letter : bool) (gs : list bgroup) (line : Z * Z * pstr) : Prop :=
  let '(start, duration, text) := line in
  forall g, group_for gs text = Some g -> paced start duration (map wd_text (shown letter g)).
(** Each ends before the next begins. *)
Definition no_overlap (lines : list (Z * Z * pstr)) : Prop :=
  ForallOrdPairs (fun a b => fst (fst a) + snd (fst a) <= fst (fst b))%Z lines.

(** ** Documents bywords is made for *)

(** The document F, with the canvas root and f frames a second, has the bywords groups gs. No text layer is in two of them, nor in another
    text layer. The text of the layer u is the tag [val u]; it is a string, and it's [old u]; without its animation it is [calm u]. *)
Record suits (st : lcls) (F : forest) (root : inode) (gs : list bgroup) (f : Q) (val : N -> N) (old calm : N -> node) : Prop := {
  su_wf : wf F;
  su_root : root_of F root;
  su_canvas : iname root = s "canvas";
  su_fps : ctx_fps (Some (iattrs root)) = Ok (Some f);
  su_pos : (0 <= f)%Q;
  su_groups : bywords_groups st F root = Ok gs;
  su_nodup : NoDup (map bt_layer (all_texts gs));
  su_text : forall t, In t (all_texts gs) -> text_at F (bt_layer t) (val (bt_layer t)) (old (bt_layer t));
  su_apart : forall t t', In t (all_texts gs) -> In t' (all_texts gs) -> bt_layer t <> bt_layer t' -> apart F (bt_layer t) (bt_layer t');
  su_still : forall t, In t (all_texts gs) -> still (Some (iattrs root)) f (old (bt_layer t)) (calm (bt_layer t)) }.
(** Each line that matches a group has something to show, at times that are written without an exponent. *)
Definition timely (letter : bool) (gs : list bgroup) (lines : list (Z * Z * pstr)) : Prop :=
  (forall line g, In line lines -> group_for gs (snd line) = Some g -> total_length (map wd_text (shown letter g)) <> 0) /\ (forall line w, In line lines -> In w (line_words letter gs line) -> plain_time (wd_time w)).

(** The names of the tags in a value *)
Fixpoint tag_names (m : node) : list pstr :=
  match m with
  | Txt _ => []
  | El nm _ k => nm :: flat_map tag_names k
  end.
(** A value with no layers in it, nor fields of layers *)
Definition inert (m : node) : Prop := ~ In (s "layer") (tag_names m) /\ ~ In (s "param") (tag_names m).

(** ** The groups *)

(** All the layers in n are of known types, and no field is called type_. *)
Definition plainly (n : inode) : Prop := all_known (idesc n) /\ forall z, In z (idesc n) -> is_param (s "type_") z = false.
(** The layer n has the type x. *)
Definition layer_of_type (x : pstr) (n : inode) : bool :=
  is_layer n && match aget (s "type") (iattrs n) with Some (AStr y) => pstr_eqb y x | _ => false end.
(** The description of a layer *)
Definition desc_of (n : inode) : option pstr := match aget (s "desc") (iattrs n) with Some v => Some (aval_str v) | None => None end.
(** n is a group whose description begins with bywords. *)
Definition bywords_layer (n : inode) : bool :=
  layer_of_type (s "group") n && match desc_of n with Some d => starts_with (s "bywords") (lower d) | None => false end.
(** t is the text of the layer n. *)
Definition is_text (n : inode) (t : btext) : Prop := bt_layer t = iuid n /\ desc_of n = Some (bt_desc t).
(** g is the group n: its texts are the text layers in n, the last first. *)
Definition is_group (n : inode) (g : bgroup) : Prop :=
  desc_of n = Some (bg_desc g) /\ Forall2 is_text (rev (filter (layer_of_type (s "text")) (idesc n))) (bg_texts g).
