(* How the fields of an ENVI header are written down. *)
From Verif Require Import Py EnviModel.
Local Open Scope string_scope.

(* nothing but white space *)
Fixpoint white (s : string) : Prop :=
  match s with EmptyString => True | String c r => is_space c = true /\ white r end.

(* no white space at either end *)
Definition tidy (s : string) : Prop :=
  (forall c r, s = String c r -> is_space c = false) /\
  (forall c r, s = r ++ String c "" -> is_space c = false).

Definition starts (c : ascii) (s : string) : Prop := exists r, s = String c r.
Definition ends (c : ascii) (s : string) : Prop := exists r, s = r ++ String c "".

(* a comment, or a line without an equals sign *)
Definition skipped (line : string) : Prop := starts ";" line \/ contains "=" line = false.

(* the line of field [k] with value text [v] *)
Definition assigns (line k v : string) : Prop :=
  exists a b c d, white a /\ white b /\ white c /\ white d /\
    line = a ++ k ++ b ++ "=" ++ c ++ v ++ d /\
    tidy k /\ contains "=" k = false /\ tidy v /\ ~ starts ";" line.

(* the lines that continue a value, one piece of it per line, comments in between *)
Inductive continued : list string -> list string -> Prop :=
| cont_end : continued [] []
| cont_comment line ps ls : starts ";" line -> continued ps ls -> continued ps (line :: ls)
| cont_piece a p b ps ls : white a -> white b -> tidy p -> ~ starts ";" (a ++ p ++ b) -> continued ps ls ->
    continued (p :: ps) ((a ++ p ++ b) :: ls).

(* [str] is the item [s] with white space around it *)
Definition padded (s str : string) : Prop :=
  exists a b, white a /\ white b /\ str = a ++ s ++ b /\ tidy s.

(* fields and the lines (without line breaks) they are written in.  A list of items
   may go over several lines; "description" is a text in braces. *)
Inductive written : list (string * value) -> list string -> Prop :=
| w_end : written [] []
| w_skip line fs ls : skipped line -> written fs ls -> written fs (line :: ls)
| w_text line k v fs ls : assigns line k v -> ~ starts "{" v -> written fs ls ->
    written ((k, Text v) :: fs) (line :: ls)
| w_list line k p ps conts items strs fs ls :
    lower k <> "description" -> assigns line k p -> continued ps conts ->
    items <> [] -> Forall2 padded items strs ->
    Forall (fun s => contains "," s = false /\ contains "}" s = false) items ->
    join newline (p :: ps) = "{" ++ join "," strs ++ "}" ->
    written fs ls -> written ((k, Items items) :: fs) (line :: conts ++ ls)
| w_description line k p ps conts v str fs ls :
    lower k = "description" -> assigns line k p -> continued ps conts ->
    padded v str -> contains "{" v = false -> contains "}" v = false ->
    join newline (p :: ps) = "{" ++ str ++ "}" ->
    written fs ls -> written ((k, Text v) :: fs) (line :: conts ++ ls).

(* the text of a file with these lines *)
Fixpoint file_text (ls : list string) : string :=
  match ls with [] => "" | l :: r => l ++ String newline (file_text r) end.

(* t is s in lower case: every capital letter is replaced by its small letter *)
Definition capitals : string := "ABCDEFGHIJKLMNOPQRSTUVWXYZ".
Definition smalls : string := "abcdefghijklmnopqrstuvwxyz".
Inductive in_lower_case : string -> string -> Prop :=
| ilc_nil : in_lower_case "" ""
| ilc_capital n c d s t : String.get n capitals = Some c -> String.get n smalls = Some d ->
    in_lower_case s t -> in_lower_case (String c s) (String d t)
| ilc_other c s t : (forall n, String.get n capitals <> Some c) ->
    in_lower_case s t -> in_lower_case (String c s) (String c t).

(* white space, as Python has it for ASCII texts *)
Definition blank (c : ascii) : Prop :=
  In (nat_of_ascii c) [9; 10; 11; 12; 13; 28; 29; 30; 31; 32]%nat.

(* names of fields do not depend on case *)
Definition lower_keys (fs : list (string * value)) : list (string * value) :=
  map (fun kv => (lower (fst kv), snd kv)) fs.

(* a line whose value opens a brace and does not close it *)
Definition opens (line : string) : Prop :=
  ~ starts ";" line /\ exists k v, split_once "=" line = Some (k, v) /\ starts "{" (strip v) /\ ~ ends "}" (strip v).

(* a line that does not close a brace *)
Definition no_close (line : string) : Prop := starts ";" line \/ ~ ends "}" (strip line).
