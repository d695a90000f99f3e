(* Model of delayed_image/sensorchan_spec.py.  Definitions only.

   The grammar (42-88) is given to the lark library, which is external.  Here the
   parser is a plain function that accepts the same texts: every terminal but
   IDEN and INT is punctuation that cannot occur inside those two, so that
   splitting at the punctuation does the work of the lexer. *)
From Verif Require Export Py ChanModel.
Local Open Scope string_scope.

(** ** Terminals *)
(* sensorchan_spec.py:42-88, terminals of the grammar *)
Definition in_class (lo hi : N) (c : ascii) : bool := ((lo <=? N_of_ascii c) && (N_of_ascii c <=? hi))%N.
(* sensorchan_spec.py:42-88, terminals of the grammar *)
Definition letter (c : ascii) : bool := in_class 65 90 c || in_class 97 122 c.
(* sensorchan_spec.py:42-88, terminals of the grammar *)
Definition dec_digit (c : ascii) : bool := in_class 48 57 c.
(* sensorchan_spec.py:48: IDEN: ("_"|"*"|LETTER) ("_"|" "|"-"|"*"|LETTER|DIGIT)* *)
Definition iden_start (c : ascii) : bool := Ascii.eqb c "_" || Ascii.eqb c "*" || letter c.
(* sensorchan_spec.py:42-88, terminals of the grammar *)
Definition iden_rest (c : ascii) : bool := iden_start c || Ascii.eqb c " " || Ascii.eqb c "-" || dec_digit c.
(* sensorchan_spec.py:42-88, terminals of the grammar *)
Fixpoint all_chars (p : ascii -> bool) (s : string) : bool :=
  match s with "" => true | String c s' => p c && all_chars p s' end.
(* sensorchan_spec.py:42-88, terminals of the grammar *)
Definition is_iden (s : string) : bool :=
  match s with "" => false | String c s' => iden_start c && all_chars iden_rest s' end.
(* lark's common.INT: DIGIT+; see sensorchan_spec.py:42-88, terminals of the grammar *)
Definition is_int (s : string) : bool :=
  match s with "" => false | _ => all_chars dec_digit s end.

(** ** Parse trees *)

(* sensorchan_spec.py:50-57 *)
Inductive code :=
| Single (id : string)
| Item (id i : string)
| Stop (id b : string)
| Range (sep : ascii) (id a b : string).       (* "." or ":" before the start *)
(* sensorchan_spec.py:60 fused, 63 fused_seq *)
Definition group := list code.
(* sensorchan_spec.py:60-71 *)
Inductive rhs := OneGroup (g : group) | Groups (gs : list group).
(* sensorchan_spec.py:66 sensor_seq, 68 sensor_lhs *)
Inductive lhs := OneSensor (s : string) | Sensors (l : list string).
(* sensorchan_spec.py:73-77 *)
Inductive item := WithSensor (l : lhs) (r : option rhs) | NoSensor (r : rhs).

(** ** Parser *)
(* an exception of lark *)
Definition bad {A} : result A := Err OtherError.     (* a lark exception *)

(* an exception of lark unless the test holds *)
Definition check {A} (b : bool) (x : A) : result A := if b then Ok x else bad.

(* sensorchan_spec.py:50-57 *)
Definition parse_code (s : string) : result code :=
  match split ":" s with
  | [x] =>
      match split "." x with
      | [i] => check (is_iden i) (Single i)
      | [i; n] => check (is_iden i && is_int n) (Item i n)
      | _ => bad
      end
  | [x; b] =>
      match split "." x with
      | [i] => check (is_iden i && is_int b) (Stop i b)
      | [i; a] => check (is_iden i && is_int a && is_int b) (Range "." i a b)
      | _ => bad
      end
  | [i; a; b] => check (is_iden i && is_int a && is_int b) (Range ":" i a b)
  | _ => bad
  end.

(* sensorchan_spec.py:60 *)
Definition parse_group (s : string) : result group := mapR parse_code (split "|" s).
(* sensorchan_spec.py:63; [s] is the text between the parentheses *)
Definition parse_groups (s : string) : result (list group) := mapR parse_group (split "," s).
(* sensorchan_spec.py:71 *)
Definition parse_rhs (s : string) : result rhs :=
  match s with
  | String "(" s' =>
      match split_once ")" s' with
      | Some (inner, "") => rmap Groups (parse_groups inner)
      | _ => bad
      end
  | _ => rmap OneGroup (parse_group s)
  end.
(* sensorchan_spec.py:68-77 *)
Definition parse_opt_rhs (s : string) : result (option rhs) :=
  match s with "" => Ok None | _ => rmap Some (parse_rhs s) end.

(* sensorchan_spec.py:48-57 *)
Definition starts_digit (s : string) : bool :=
  match s with String c _ => dec_digit c | "" => false end.

(* sensorchan_spec.py:63 and 66 share the prefix "(" IDEN ",": there lark's LALR(1) table has a
   shift/reduce conflict between a list of sensors and a list of groups, which it
   resolves as a shift, that is for sensors.  A list of groups without a sensor
   whose first group is one plain name followed by a comma is thus rejected. *)
Definition conflict (gs : list group) : bool :=
  match gs with [Single _] :: _ :: _ => true | _ => false end.

(* sensorchan_spec.py:68-77 *)
Definition parse_item (s : string) : result item :=
  match s with
  | String "(" s' =>
      match split_once ")" s' with
      | Some (inner, String ":" r) =>
          ids <- mapR (fun i => check (is_iden i) i) (split "," inner) ;;
          r <- parse_opt_rhs r ;;
          Ok (WithSensor (Sensors ids) r)
      | Some (inner, "") =>
          gs <- parse_groups inner ;;
          if conflict gs then bad else Ok (NoSensor (Groups gs))
      | _ => bad
      end
  | _ =>
      match split_once ":" s with
      | Some (a, b) =>
          if is_iden a && negb (starts_digit b)
          then r <- parse_opt_rhs b ;; Ok (WithSensor (OneSensor a) r)
          else rmap (fun g => NoSensor (OneGroup g)) (parse_group s)
      | None => rmap (fun g => NoSensor (OneGroup g)) (parse_group s)
      end
  end.

(* commas outside of parentheses; see sensorchan_spec.py:82 *)
Fixpoint split_top (inside : bool) (s : string) : list string :=
  match s with
  | "" => [""]
  | String c s' =>
      if Ascii.eqb c "," && negb inside then "" :: split_top inside s'
      else
        let inside' := if Ascii.eqb c "(" then true else if Ascii.eqb c ")" then false else inside in
        match split_top inside' s' with
        | h :: t => String c h :: t
        | [] => [String c ""]
        end
  end.

(* sensorchan_spec.py:82; the parser of 793-811 *)
Definition parse (s : string) : result (list item) := mapR parse_item (split_top false s).

(** ** SensorChanTransformer *)

(* int() of an INT token; see sensorchan_spec.py:693-706 *)
Definition int_value (s : string) : Z := match py_int s with Ok z => z | Err _ => 0%Z end.
(* sensorchan_spec.py:697-706 *)
Definition zrange (a b : Z) : list Z := map (fun k => (a + k)%Z) (zseq (Z.to_nat (b - a))).

(* sensorchan_spec.py:689-709 *)
Definition code_names (c : code) : list string :=
  match c with
  | Single id => [id]
  | Item id i => [(id ++ String "." i)]
  | Stop id b => map (indexed id) (zrange 0 (int_value b))
  | Range _ id a b => map (indexed id) (zrange (int_value a) (int_value b))
  end.

(* sensorchan_spec.py:591-605 SensorChanNode *)
Record snode := mkSN { sn_sensor : string; sn_chan : fused }.
Definition sn_text (n : snode) : string := sn_sensor n ++ String ":" (fspec (sn_chan n)).   (* sensorchan_spec.py:600-602 *)

(* sensorchan_spec.py:718-722 fused *)
Definition tr_group (concise_channels : bool) (g : group) : result fused :=
  let f := mkF (flat_map code_names g) false in
  if concise_channels then concise f else Ok f.
(* sensorchan_spec.py:714-716, 724-731 *)
Definition rhs_groups (r : rhs) : list group := match r with OneGroup g => [g] | Groups gs => gs end.
(* sensorchan_spec.py:724-731 *)
Definition tr_rhs (cc : bool) (r : rhs) : result (list fused) := mapR (tr_group cc) (rhs_groups r).
(* sensorchan_spec.py:711-712, 733-740 *)
Definition lhs_sensors (l : lhs) : list string := match l with OneSensor s => [s] | Sensors l => l end.
(* sensorchan_spec.py:742-759 *)
Definition tr_item (cc : bool) (i : item) : result (list snode) :=
  match i with
  | NoSensor r => chans <- tr_rhs cc r ;; Ok (map (mkSN "*") chans)
  | WithSensor l r =>
      chans <- match r with None => Ok [mkF [] false] | Some r => tr_rhs cc r end ;;
      Ok (flat_map (fun a => map (mkSN a) chans) (lhs_sensors l))
  end.
(* sensorchan_spec.py:761-765 *)
Definition tr_items (cc : bool) (t : list item) : result (list snode) :=
  l <- mapR (tr_item cc) t ;; Ok (List.concat l).

(* ub.group_items(values, keys), sensorchan_spec.py:766-787 *)
Definition group_items (kvs : list (string * string)) : list (string * list string) :=
  fold_left (fun d kv => dict_set (fst kv) (match dict_get (fst kv) d with Some l => l ++ [snd kv] | None => [snd kv] end)%list d) kvs [].
(* sorted() of strings; see Python: sorted, sensorchan_spec.py:766-787 *)
Fixpoint insert_str (x : string) (l : list string) : list string :=
  match l with [] => [x] | y :: l' => if String.leb x y then x :: l else y :: insert_str x l' end.
(* Python: sorted, sensorchan_spec.py:766-787 *)
Definition sort_strs (l : list string) : list string := fold_right insert_str [] l.

(* sensorchan_spec.py:766-787 *)
Definition parens (s : string) : string := String "(" (s ++ ")").
(* sensorchan_spec.py:761-787 stream, concise_sensors=1 *)
Definition concise_parts (nodes : list snode) : list string :=
  let chan_to_sensors := group_items (map (fun n => (fspec (sn_chan n), sn_sensor n)) nodes) in
  let pass1 := map (fun cs => let part := join "," (sort_strs (oset_of (snd cs))) in
                              (if Nat.ltb 1 (List.length (snd cs)) then parens part else part, fst cs)) chan_to_sensors in
  let sensor_to_chan := group_items pass1 in
  sort_strs (map (fun sc => let part := join "," (snd sc) in
                            fst sc ++ String ":" (if Nat.ltb 1 (List.length (snd sc)) then parens part else part)) sensor_to_chan).

(* sensorchan_spec.py:881-897 sensorchan_normalized_parts *)
Definition normalized_parts (s : string) : result (list snode) := t <- parse s ;; tr_items false t.
(* sensorchan_spec.py:814-839 *)
Definition normalize_sensor_chan (s : string) : result string :=
  nodes <- normalized_parts (if String.eqb s "" then "*:" else s) ;;
  Ok (join "," (map sn_text nodes)).
(* sensorchan_spec.py:842-878 *)
Definition concise_sensor_chan (s : string) : result string :=
  t <- parse s ;; nodes <- tr_items true t ;; Ok (join "," (concise_parts nodes)).

(** ** SensorChanSpec and FusedSensorChanSpec *)

Inductive sspec :=
| SText (s : string)                         (* sensorchan_spec.py:199-200 SensorChanSpec *)
| SFused (sensor : string) (chans : fused).  (* sensorchan_spec.py:506-509 FusedSensorChanSpec *)
(* sensorchan_spec.py:200; 583-585 *)
Definition stext (x : sspec) : string :=
  match x with SText s => s | SFused sensor chans => sensor ++ String ":" (fspec chans) end.

(* sensorchan_spec.py:290-301 *)
Definition streams (x : sspec) : result (list (string * fused)) :=
  nodes <- normalized_parts (stext x) ;; Ok (map (fun n => (sn_sensor n, sn_chan n)) nodes).
(* sensorchan_spec.py:211-212; 548-549 *)
Definition snumel (x : sspec) : result Z :=
  match x with
  | SText _ => l <- streams x ;; ns <- mapR (fun s => numel (snd s)) l ;; Ok (zsum ns)
  | SFused _ chans => numel chans
  end.
(* sensorchan_spec.py:303-327; the streams of a channel spec are parsed from its text *)
Definition ssplit (x : sspec) : result sspec :=
  l <- streams x ;;
  subs <- mapR (fun s => c <- fsplit (snd s) ;;
                         Ok (map (fun sub => fst s ++ String ":" (fspec sub)) (cstreams c))) l ;;
  Ok (SText (join "," (List.concat subs))).
(* sensorchan_spec.py:391-396 *)
Definition slate_fuse (l : list sspec) : sspec :=
  SText (join "," (filter (fun s => negb (String.eqb s "")) (map stext l))).
(* sensorchan_spec.py:412-458; sum starts from 0, which __radd__ (404-410) absorbs *)
Definition matching_sensor (x : sspec) (sensor : string) : result sspec :=
  if String.eqb sensor "*" then Ok x
  else
    l <- streams x ;;
    match filter (fun s => String.eqb (fst s) sensor || String.eqb (fst s) "*") l with
    | [] => Ok (SFused sensor (mkF [] false))
    | s :: rest =>
        Ok (fold_left (fun acc s => slate_fuse [acc; SFused (fst s) (snd s)]) rest (SFused (fst s) (snd s)))
    end.
(* sensorchan_spec.py:460-486 *)
Definition schans (x : sspec) : result (option bspec) :=
  match x with
  | SFused _ chans => Ok (Some (BF chans))                    (* sensorchan_spec.py:579-581 *)
  | SText _ =>
      l <- streams x ;;
      match l with
      | [] => Ok None
      | s :: _ =>
          if forallb (fun t => String.eqb (fst t) (fst s)) l
          then Ok (spec_sum (map (fun t => BF (snd t)) l)) else Err OtherError
      end
  end.
(* sensorchan_spec.py:263-266, 268-288 *)
Definition snormalize (x : sspec) : result string := normalize_sensor_chan (stext x).
(* sensorchan_spec.py:268-288 *)
Definition sconcise (x : sspec) : result string := concise_sensor_chan (stext x).
(* sensorchan_spec.py:511-522 FusedSensorChanSpec.from_spec *)
Definition sfused_from_spec (s : string) : result sspec :=
  nodes <- normalized_parts s ;;
  match nodes with
  | [n] => Ok (SFused (sn_sensor n) (fparse (fspec (sn_chan n))))
  | _ => Err ValueError
  end.
