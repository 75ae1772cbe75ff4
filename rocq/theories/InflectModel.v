(** * internal/inflect *)
From Verif Require Export BaseModel.
From Coq Require Export Ascii.

(** Go strings are sequences of bytes. *)
Notation text := (list ascii).
Definition txt (s : string) : text := list_ascii_of_string s.

(** ** Replacement *)

(** \w and \b of package regexp (ASCII); [None] stands for the ends of the text. *)
Definition word_char (c : ascii) : bool :=
  let n := nat_of_ascii c in
  ((48 <=? n) && (n <=? 57)) || ((65 <=? n) && (n <=? 90)) || (n =? 95) || ((97 <=? n) && (n <=? 122)).
Definition wordish (c : option ascii) : bool := match c with Some c => word_char c | None => false end.
Definition boundary (a b : option ascii) : bool := xorb (wordish a) (wordish b).

Fixpoint starts_with (k s : text) : bool :=
  match k, s with
  | [], _ => true
  | a :: k, b :: s => bool_decide (a = b) && starts_with k s
  | _ :: _, [] => false
  end.

(** Whether [k] matches at the beginning of [s], [prev] being the character before
    [s]; [b]: the match must be at word boundaries on both sides. *)
Definition matches (b : bool) (prev : option ascii) (k s : text) : bool :=
  starts_with k s &&
  (negb b || (boundary prev (head s) && boundary (last k) (head (drop (length k) s)))).

(** strings.ReplaceAll ([b] = false) and replaceAll, inflect.go:81-83 ([b] = true):
    the leftmost non-overlapping matches of [k] are replaced by [v].  [k] is not
    empty.  [skip] characters of [s] belong to the last match. *)
Fixpoint replace_from (b : bool) (k v : text) (prev : option ascii) (skip : nat) (s : text) : text :=
  match s with
  | [] => []
  | c :: s' =>
    match skip with
    | S n => replace_from b k v (Some c) n s'
    | 0 =>
      if matches b prev k s then v ++ replace_from b k v (Some c) (length k - 1) s'
      else c :: replace_from b k v (Some c) 0 s'
    end
  end.
Definition replace_all (b : bool) (kv : text * text) (s : text) : text :=
  replace_from b kv.1 kv.2 None 0 s.

(** strings.ToUpper, for ASCII. *)
Definition upper_char (c : ascii) : ascii :=
  let n := nat_of_ascii c in if (97 <=? n) && (n <=? 122) then ascii_of_nat (n - 32) else c.
Definition upper (s : text) : text := map upper_char s.

(** ** The tables *)

Definition table : Type := list (text * text).
Definition entry (k v : string) : text * text := (txt k, txt v).

(** substitutions, inflect.go:12-36. *)
Definition substitutions (k : Kind) : table :=
  match k with
  | KCommand =>
    [entry "<message>" "command"; entry "<messages>" "commands"; entry "<produce>" "execute";
     entry "<produced>" "executed"; entry "<producing>" "executing";
     entry "<dispatcher>" "dogma.CommandExecutor"]
  | KEvent =>
    [entry "<message>" "event"; entry "<messages>" "events"; entry "<produce>" "record";
     entry "<produced>" "recorded"; entry "<producing>" "recording";
     entry "<dispatcher>" "dogma.EventRecorder"]
  | KTimeout =>
    [entry "<message>" "timeout"; entry "<messages>" "timeouts"; entry "<produce>" "schedule";
     entry "<produced>" "scheduled"; entry "<producing>" "scheduling"]
  end.

(** corrections, inflect.go:38-45. *)
Definition corrections : table :=
  [entry "an command" "a command"; entry "a event" "an event"; entry "an timeout" "a timeout";
   entry "1 commands" "1 command"; entry "1 events" "1 event"; entry "1 timeouts" "1 timeout"].

(** One iteration of the loops of Sprint: lower case, then upper case. *)
Definition apply_entry (b : bool) (s : text) (kv : text * text) : text :=
  replace_all b (upper kv.1, upper kv.2) (replace_all b kv s).

(** Sprint, inflect.go:48-60.  [subs] and [cors] are the tables in the order chosen
    by Go's map iteration. *)
Definition sprint (subs cors : table) (s : text) : text :=
  foldl (apply_entry true) (foldl (apply_entry false) s subs) cors.
