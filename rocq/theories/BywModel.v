(** /repo/bywords/bywords.py, /repo/bywords/adjust.py and /repo/bywords/__main__.py: making words appear
    in time with subtitles.
    Left out: the log (bywords.py:29-35,166-200, adjust.py:33-34) and reading .srt files (pysrt, a library):
    a subtitle is its start and its duration in milliseconds ([ordinal]), and its text. *)
From Verif Require Export AnimModel.
Local Open Scope Z_scope.

(** ** Texts and words *)

(** bywords.py:17,51-52 [tidy_string]: the lower case of the string without the characters that are not
    [a-z0-9 ]. Outside ASCII only two characters have such a letter in their lower case: U+0130, which
    becomes an i and a combining dot, and U+212A, the sign for kelvins. *)
Definition tidy_char (c : N) : pstr :=
  if is_upper c then [(c + 32)%N]
  else if is_lower c || is_digit c || (c =? 32)%N then [c]
  else if (c =? 304)%N then [105%N]
  else if (c =? 8490)%N then [107%N]
  else [].
Definition tidy_string (x : pstr) : pstr := flat_map tidy_char x.

(** bywords.py:14 *)
Definition is_blank (c : N) : bool := (c =? 32)%N || (c =? 9)%N || (c =? 10)%N.
(** [WHITESPACE.split(x)]: the texts between the runs of blanks and, as the expression has a group, the
    runs. [acc] is the current piece, reversed; [run] says whether it's a run of blanks. *)
Fixpoint split_blanks (x : pstr) (run : bool) (acc : pstr) : list pstr :=
  match x with
  | [] => if run then [rev acc; []] else [rev acc]
  | c :: x' =>
      if Bool.eqb (is_blank c) run then split_blanks x' run (c :: acc)
      else rev acc :: split_blanks x' (is_blank c) [c]
  end.
(** bywords.py:15 [NOTHING.split(x)]: the expression matches between all the characters *)
Definition split_letters (x : pstr) : list pstr := [[]; []] ++ flat_map (fun c => [[c]; []]) x.

(** bywords.py:60-63,71-73 *)
Definition split_words (letter : bool) (x : pstr) : list pstr :=
  filter (fun w => negb (pstr_eqb w [])) (if letter then split_letters x else split_blanks x false []).

(** bywords.py:75-89 the values of i for which item.desc[:i] is used *)
Fixpoint word_ends (i : nat) (words : list pstr) : list nat :=
  match words with
  | [] => []
  | word :: rest =>
      let i := (i + length word)%nat in
      i :: match rest with
           | next :: rest' => if pstr_eqb (strip next) [] then word_ends (i + length next) rest' else word_ends i rest
           | [] => []
           end
  end.
Definition word_texts (letter : bool) (desc : pstr) : list pstr :=
  map (fun i => firstn i desc) (word_ends 0 (split_words letter desc)).

(** ** Groups *)

(** bywords.py:41-45: a text layer in a group. [bt_obj] is the identity of the Layer object, made by find_all:
    the number of the group and the number in it. [bt_layer] is the number of its tag. *)
Record btext : Type := mkText { bt_obj : nat * nat; bt_layer : N; bt_desc : pstr }.
(** bywords.py:37-38 BywordsGroup *)
Record bgroup : Type := mkGroup { bg_desc : pstr; bg_texts : list btext }.
(** bywords.py:47-48 [full_text] *)
Definition full_text (g : bgroup) : pstr := join (s " ") (map (fun t => tidy_string (bt_desc t)) (bg_texts g)).

(** bywords.py:22-26 WordTiming *)
Record word : Type := mkWord { wd_text : pstr; wd_obj : nat * nat; wd_layer : N; wd_time : Q }.

(** bywords.py:97-100. [time] is an int at first, and then a float: [time/1000] is rounded once
    either way. Numbers too large for a float (OverflowError) are not modelled. *)
Fixpoint set_times (ms : Q) (time : Q) (l : list word) : list word :=
  match l with
  | [] => []
  | w :: l' => mkWord (wd_text w) (wd_obj w) (wd_layer w) (rnd64 (time / 1000))
                 :: set_times ms (fadd (rnd64 time) (fmul (f_of_Z (Z.of_nat (length (wd_text w)))) ms)) l'
  end.
(** bywords.py:82-86 the words of a text, with the time zero *)
Definition text_words (letter : bool) (t : btext) : list word :=
  map (fun x => mkWord x (bt_obj t) (bt_layer t) 0) (word_texts letter (bt_desc t)).
Definition letters (l : list word) : Z := fold_right Z.add 0 (map (fun w => Z.of_nat (length (wd_text w))) l).
(** bywords.py:94-102 *)
Definition timed (start duration : Z) (l : list word) : res (list word) :=
  if letters l =? 0 then Err ZeroDivisionError
  else Ok (set_times (rnd64 (inject_Z duration / inject_Z (letters l))) (inject_Z start) l).

(** ** The value of a text layer *)

(** [obj['text']] *)
Definition text_value (F : forest) (u : N) : res (inode * vcls) :=
  match fget u F with
  | None => Err EUnmodelled      (* the tags of layers stay in the document *)
  | Some n => layer_getitem n (s "text")
  end.

(** bywords.py:69 [item['text'].is_animated = False]. In Python the value gets a new tag; here
    it keeps its number (nothing else has the old tag). It is in a param, so it has a parent. *)
Definition text_unanimate (F : forest) (u : N) : change :=
  match text_value F u with
  | Err e => (F, Err e)
  | Ok (v, c) =>
      if is_animated (forget v)
      then let (m, r) := set_is_animated c (forget v) (ctx_of F (iuid v)) true false in (write_tag F (iuid v) m, r)
      else (F, Ok tt)
  end.

(** bywords.py:68-92 the loop over the texts of a group: the new document, and the words *)
Fixpoint unanimate_all (F : forest) (l : list btext) : change :=
  match l with
  | [] => (F, Ok tt)
  | t :: l' => andthen (text_unanimate F (bt_layer t)) (fun F1 => unanimate_all F1 l')
  end.

(** bywords.py:54-102 [matches], [] being also None *)
Definition group_matches (letter : bool) (F : forest) (g : bgroup) (line : Z * Z * pstr) : forest * res (list word) :=
  let '(start, duration, text) := line in
  if negb (pstr_eqb text (full_text g)) then (F, Ok [])
  else match unanimate_all F (bg_texts g) with
       | (F1, Err e) => (F1, Err e)
       | (F1, Ok _) => (F1, timed start duration (flat_map (text_words letter) (bg_texts g)))
       end.

(** ** Finding the groups *)

(** [layer.desc] (layer.py:49); [None.lower()] raises *)
Definition make_text (obj : nat * nat) (n : inode) : res btext :=
  let* d := attr_get (s "desc") TStrA PNone n in
  match d with
  | PStr x => Ok (mkText obj (iuid n) x)
  | _ => Err AttributeError
  end.
Fixpoint make_texts (k i : nat) (l : list inode) : res (list btext) :=
  match l with
  | [] => Ok []
  | n :: l' => let* t := make_text (k, i) n in let* r := make_texts k (S i) l' in Ok (t :: r)
  end.
(** bywords.py:38-48 [BywordsGroup(group)], the kth *)
Definition make_group (st : lcls) (F : forest) (k : nat) (d : pstr) (n : inode) : res bgroup :=
  let* l := layer_find_all st F n [PaStr (s "text")] true [] None in
  let* ts := make_texts k 0 (rev l) in
  Ok (mkGroup d ts).
(** bywords.py:137-142 *)
Fixpoint make_groups (st : lcls) (F : forest) (k : nat) (l : list inode) : res (list bgroup) :=
  match l with
  | [] => Ok []
  | n :: l' =>
      let* d := attr_get (s "desc") TStrA PNone n in
      match d with
      | PStr x => if starts_with (s "bywords") (lower x)
                  then let* g := make_group st F k x n in let* r := make_groups st F (S k) l' in Ok (g :: r)
                  else make_groups st F k l'
      | _ => make_groups st F k l'
      end
  end.
(** bywords.py:104-113, 137: [sorted] uses [__lt__] only *)
Definition sort_groups : list bgroup -> list bgroup := sort (fun a b => pstr_le (bg_desc a) (bg_desc b)).
Definition cls_Group : lcls := nth 12 layer_classes cls_Layer.
(** [root] is the tag of the animation *)
Definition bywords_groups (st : lcls) (F : forest) (root : inode) : res (list bgroup) :=
  let* l := layer_find_all st F root [PaCls cls_Group] true [] None in
  let* gs := make_groups st F 0 l in
  Ok (sort_groups gs).

(** ** Bywords *)

(** bywords.py:149-156 the loop over the groups *)
Fixpoint try_groups (letter : bool) (F : forest) (gs : list bgroup) (line : Z * Z * pstr) : forest * res (list word) :=
  match gs with
  | [] => (F, Ok [])
  | g :: gs' =>
      match group_matches letter F g line with
      | (F1, Ok []) => try_groups letter F1 gs' line
      | r => r
      end
  end.

(** bywords.py:158-159 the dict from times to words: a key that is there keeps its place *)
Fixpoint put_word (w : word) (d : list word) : list word :=
  match d with
  | [] => [w]
  | v :: d' => if Qeq_bool (wd_time v) (wd_time w) then w :: d' else v :: put_word w d'
  end.
Definition put_words (ws : list word) (d : list word) : list word := fold_left (fun d w => put_word w d) ws d.

(** bywords.py:144-161: the document, the words found and the lines with none *)
Fixpoint run_lines (letter : bool) (F : forest) (gs : list bgroup) (lines : list (Z * Z * pstr)) (d : list word) (no : list pstr)
  : forest * res (list word * list pstr) :=
  match lines with
  | [] => (F, Ok (d, no))
  | line :: lines' =>
      match try_groups letter F gs line with
      | (F1, Err e) => (F1, Err e)
      | (F1, Ok []) => run_lines letter F1 gs lines' d (no ++ [snd line])
      | (F1, Ok found) => run_lines letter F1 gs lines' (put_words found d) no
      end
  end.

(** bywords.py:162 *)
Definition sort_words : list word -> list word := sort (fun a b => Qle_bool (wd_time a) (wd_time b)).

(** bywords.py:127-135: the texts of the subtitles are tidied first *)
Definition tidy_line (line : Z * Z * pstr) : Z * Z * pstr := let '(a, b, x) := line in (a, b, tidy_string x).

(** bywords.py:116-164 [Bywords(srt, sif, letter_at_a_time)]: its words and no_matches *)
Definition bywords (st : lcls) (letter : bool) (F : forest) (root : inode) (srt : list (Z * Z * pstr))
  : forest * res (list word * list pstr) :=
  match bywords_groups st F root with
  | Err e => (F, Err e)
  | Ok gs => match run_lines letter F gs (map tidy_line srt) [] [] with
             | (F1, Ok (d, no)) => (F1, Ok (sort_words d, no))
             | r => r
             end
  end.

(** ** adjust *)

(** adjust.py:7-18. [x] is the time as Python writes it in an f-string. *)
Definition constant_waypoint (cx : ctx) (x text : pstr) : res wp :=
  let* v := new_value VString (PStr text) in
  let* t := T_init (TStr (x ++ s "s")) cx in
  waypoint_new (KeyT t) (PVal VString v None) (s "constant") (s "constant") None.
(** adjust.py:7-19 [set_constant_waypoint], on the timeline of the value with the tag v and the class c. [tl += w]
    calls [__iadd__], and only changes the local variable. *)
Definition set_constant_waypoint (F : forest) (v : N) (c : vcls) (x text : pstr) : change :=
  match fget v F with
  | None => (F, Err EUnmodelled)
  | Some n =>
      match constant_waypoint (ctx_of F v) x text with
      | Err e => (F, Err e)
      | Ok w => let (m, r) := tl_add c (forget n) (ctx_of F v) true [w] true in (write_tag F v m, r)
      end
  end.

Definition obj_eqb (a b : nat * nat) : bool := Nat.eqb (fst a) (fst b) && Nat.eqb (snd a) (snd b).
(** adjust.py:42-51 *)
Fixpoint set_waypoints_of (F : forest) (v : N) (c : vcls) (l : list (pstr * pstr)) : change :=
  match l with
  | [] => (F, Ok tt)
  | (x, text) :: l' => andthen (set_constant_waypoint F v c x text) (fun F1 => set_waypoints_of F1 v c l')
  end.
(** adjust.py:37-51, for one object. Setting [is_animated] (:37) makes an attribute of the Layer object,
    which nothing reads. *)
Definition adjust_one (words : list word) (F : forest) (obj : (nat * nat) * N) : change :=
  match text_value F (snd obj) with
  | Err e => (F, Err e)
  | Ok (v, c) =>
      set_waypoints_of F (iuid v) c
        ((s "0", []) :: map (fun w => (repr_float (wd_time w), wd_text w)) (filter (fun w => obj_eqb (wd_obj w) (fst obj)) words))
  end.
Fixpoint adjust_all (words : list word) (F : forest) (objs : list ((nat * nat) * N)) : change :=
  match objs with
  | [] => (F, Ok tt)
  | o :: l => andthen (adjust_one words F o) (fun F1 => adjust_all words F1 l)
  end.
(** adjust.py:36 [set([o.item for o in bw])]: Layer has no [__eq__], so objects are compared by identity *)
Fixpoint objs_of (l : list word) : list ((nat * nat) * N) :=
  match l with
  | [] => []
  | w :: l' => (wd_obj w, wd_layer w) :: filter (fun o => negb (obj_eqb (fst o) (wd_obj w))) (objs_of l')
  end.
(** adjust.py:21-51 [adjust]. The order of a set is arbitrary: [order] gives it. *)
Definition adjust (order : list ((nat * nat) * N) -> list ((nat * nat) * N)) (st : lcls) (letter : bool) (F : forest) (root : inode)
  (srt : list (Z * Z * pstr)) : change :=
  match bywords st letter F root srt with
  | (F1, Err e) => (F1, Err e)
  | (F1, Ok (words, _)) => adjust_all words F1 (order (objs_of words))
  end.

(** ** The command *)

Section Main.
  (** [void] and [can] as in [save]; [read_srt] is [pysrt.open]; [order] as in [adjust] *)
  Context (void : pstr -> attrs -> bool) (can : pstr -> bool) (read_srt : files -> pstr -> res (list (Z * Z * pstr)))
          (order : list ((nat * nat) * N) -> list ((nat * nat) * N)) (st : lcls).

  (** __main__.py:29-32 *)
  Definition srt_name (sif : pstr) (srt : option pstr) : pstr :=
    match srt with
    | Some x => x
    | None => firstn (length sif - length (split_ext sif)) sif ++ s ".srt"
    end.

  (** __main__.py:41-51 [main]: the files after it *)
  Definition main (letter : bool) (fs : files) (sif : pstr) (srt : option pstr) : files * res unit :=
    match read_srt fs (srt_name sif srt) with
    | Err e => (fs, Err e)
    | Ok lines =>
        match load fs sif with
        | Err e => (fs, Err e)
        | Ok a =>
            let F := doc_forest (am_root a) in
            match fget 1 F with
            | None => (fs, Err EUnmodelled)
            | Some root =>
                match adjust order st letter F root lines with
                | (_, Err e) => (fs, Err e)
                | (F', Ok _) =>
                    match fget 1 F' with
                    | None => (fs, Err EUnmodelled)
                    | Some n => let '(fs', _, r) := save void can fs (mkAnim (forget n) (am_kind a) (am_file a)) (Some sif) in (fs', r)
                    end
                end
            end
        end
    end.
End Main.
