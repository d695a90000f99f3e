(* The reader of ENVI headers and the choice of the data file beside a header
   (delayed_image/lazy_loaders.py). *)
From Verif Require Import Py.
Local Open Scope string_scope.

(* the value of a header field: a text or a list of texts
   See lazy_loaders.py:1140-1151, the returned dictionary *)
Inductive value := Text (s : string) | Items (l : list string).

Definition newline : ascii := ascii_of_N 10.   (* Python: '\n' *)

(* Python: readlines() of the text of a file, every line with its line break.  Line
   breaks are single newline characters (text mode translates the others). *)
Fixpoint lines (s : string) : list string :=
  match s with
  | EmptyString => []
  | String c r =>
      if Ascii.eqb c newline then String c "" :: lines r
      else match lines r with
           | [] => [String c ""]
           | l :: ls => String c l :: ls
           end
  end.

(* Python: str.strip() *)
Definition strip (s : string) : string := rstrip (lstrip s).

(* Python: str.lower() of one ASCII character *)
Definition lower_char (c : ascii) : ascii :=
  let n := N_of_ascii c in
  if ((65 <=? n) && (n <=? 90))%N then ascii_of_N (n + 32) else c.

(* Python: str.lower() *)
Fixpoint lower (s : string) : string :=
  match s with EmptyString => "" | String c r => String (lower_char c) (lower r) end.

(* Python: s[0] == c, False for the empty string (never met: every line has a
   character, and the value is tested before) *)
Definition first_is (c : ascii) (s : string) : bool :=
  match s with String a _ => Ascii.eqb a c | EmptyString => false end.

(* Python: s[-1] == c *)
Fixpoint last_is (c : ascii) (s : string) : bool :=
  match s with
  | EmptyString => false
  | String a EmptyString => Ascii.eqb a c
  | String _ r => last_is c r
  end.

(* Python: s[:-1] *)
Fixpoint but_last (s : string) : string :=
  match s with
  | EmptyString => ""
  | String a EmptyString => ""
  | String a r => String a (but_last r)
  end.

(* Python: s[1:] *)
Definition but_first (s : string) : string := match s with String _ r => r | EmptyString => "" end.

(* Python: s.lstrip('{}') and s.rstrip('{}') *)
Definition is_brace (c : ascii) : bool := (Ascii.eqb c "{" || Ascii.eqb c "}")%bool.
(* Python: s.lstrip('{}') *)
Fixpoint lstrip_braces (s : string) : string :=
  match s with String c r => if is_brace c then lstrip_braces r else s | EmptyString => "" end.
(* Python: s.rstrip('{}') *)
Fixpoint rstrip_braces (s : string) : string :=
  match s with
  | EmptyString => ""
  | String c r => match rstrip_braces r with
                  | EmptyString => if is_brace c then "" else String c ""
                  | r' => String c r'
                  end
  end.

(* lazy_loaders.py:1201-1207: store the text in braces of field [key] *)
Definition store (key str : string) (d : list (string * value)) : list (string * value) :=
  if String.eqb key "description" then dict_set key (Text (strip (rstrip_braces (lstrip_braces str)))) d
  else dict_set key (Items (map strip (split "," (but_last (but_first str))))) d.

(* lazy_loaders.py:1177-1209: the loop over the remaining lines.  [pend] is the field
   whose closing brace is looked for (the inner loop).  key.islower() decides only
   whether a warning is given and whether lower() is called, which would not change
   a lower case key. *)
Fixpoint fields (pend : option (string * string)) (d : list (string * value)) (ls : list string)
  : result (list (string * value)) :=
  match ls with
  | [] => match pend with None => Ok d | Some _ => Err IndexError end
  | line :: r =>
      match pend with
      | Some (key, str) =>
          if first_is ";" line then fields pend d r
          else let str' := str ++ String newline (strip line) in
               if last_is "}" str' then fields None (store key str' d) r
               else fields (Some (key, str')) d r
      | None =>
          match split_once "=" line with
          | None => fields None d r
          | Some (k, v) =>
              if first_is ";" line then fields None d r
              else let key := lower (strip k) in
                   let val := strip v in
                   if first_is "{" val then
                     if last_is "}" val then fields None (store key val d) r
                     else fields (Some (key, val)) d r
                   else fields None (dict_set key (Text val) d) r
          end
      end
  end.

(* lazy_loaders.py:1140-1224 _read_envi_header of a file with the given text *)
Definition read_header (text : string) : result (list (string * value)) :=
  match lines text with
  | [] => Err OtherError
  | l :: ls => if String.prefix "ENVI" (strip l) then fields None [] ls else Err OtherError
  end.

(** ** The file that is opened *)

(* Python: s.endswith(e) *)
Fixpoint ends_with (e s : string) : bool :=
  (String.eqb s e || match s with String _ r => ends_with e r | EmptyString => false end)%bool.

(* Python: os.path.splitext: (whether a character other than a dot stands before the
   dot in the file name is [body]); the part before the last dot of the file name *)
Fixpoint root_of (body : bool) (s : string) : option string :=
  match s with
  | EmptyString => None
  | String c r =>
      if Ascii.eqb c "/" then option_map (String c) (root_of false r)
      else if Ascii.eqb c "." then
        match root_of body r with
        | Some x => Some (String c x)
        | None => if (body && negb (contains "/" r))%bool then Some "" else None
        end
      else option_map (String c) (root_of true r)
  end.

(* ubelt.augpath(path, ext=ext): the extension is replaced *)
Definition with_ext (path ext : string) : string :=
  match root_of false path with Some x => x ++ ext | None => path ++ ext end.

(* lazy_loaders.py:580-588: the path handed to GDAL; [text] is the content of the
   header.  A list of texts cannot be added to a text. *)
Definition data_path (path text : string) : result string :=
  if ends_with ".hdr" path then
    h <- read_header text ;;
    v <- dict_index "interleave" h ;;
    match v with
    | Text s => Ok (with_ext path ("." ++ s))
    | Items _ => Err TypeError
    end
  else Ok path.
