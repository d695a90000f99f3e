(* Specification vocabulary for sensor-channel specs: how a spec is written and
   which streams it stands for.  Channel codes mean what [ChanSpec.denotes] says. *)
From Verif Require Export ChanSpec SensorModel.
Local Open Scope string_scope.

(** ** The written form: one text per parse tree *)
Definition text_code (c : code) : string :=
  match c with
  | Single id => id
  | Item id i => id ++ "." ++ i
  | Stop id b => id ++ ":" ++ b
  | Range sep id a b => id ++ String sep (a ++ ":" ++ b)
  end.
Definition text_group (g : group) : string := join "|" (map text_code g).
Definition text_rhs (r : rhs) : string :=
  match r with
  | OneGroup g => text_group g
  | Groups gs => "(" ++ join "," (map text_group gs) ++ ")"
  end.
Definition text_lhs (l : lhs) : string :=
  match l with
  | OneSensor s => s ++ ":"
  | Sensors l => "(" ++ join "," l ++ "):"
  end.
Definition text_item (i : item) : string :=
  match i with
  | WithSensor l None => text_lhs l
  | WithSensor l (Some r) => text_lhs l ++ text_rhs r
  | NoSensor r => text_rhs r
  end.
Definition text (t : list item) : string := join "," (map text_item t).

(* the characters an identifier starts with and goes on with, and numbers (grammar in sensorchan_spec.py:48) *)
Definition letters : list ascii := list_ascii_of_string "abcdefghijklmnopqrstuvwxyzABCDEFGHIJKLMNOPQRSTUVWXYZ".
Definition digits : list ascii := list_ascii_of_string "0123456789".
Definition identifier (s : string) : Prop :=
  exists c r, s = String c r /\ In c (["_"; "*"]%char ++ letters) /\
    forall d, In d (list_ascii_of_string r) -> In d (["_"; "*"; " "; "-"]%char ++ letters ++ digits).
Definition number (s : string) : Prop := s <> "" /\ forall d, In d (list_ascii_of_string s) -> In d digits.

(* the terminals are well formed and no list is empty *)
Definition wf_code (c : code) : Prop :=
  match c with
  | Single id => is_iden id = true
  | Item id n | Stop id n => is_iden id = true /\ is_int n = true
  | Range sep id a b => is_iden id = true /\ is_int a = true /\ is_int b = true /\ In sep ["."; ":"]%char
  end.
Definition some {A} (P : A -> Prop) (l : list A) : Prop := l <> [] /\ Forall P l.
Definition wf_rhs (r : rhs) : Prop :=
  match r with OneGroup g => some wf_code g | Groups gs => some (some wf_code) gs end.
Definition wf_lhs (l : lhs) : Prop :=
  match l with OneSensor s => is_iden s = true | Sensors l => some (fun s => is_iden s = true) l end.
(* the last line leaves out what lark's conflict resolution rejects *)
Definition wf_item (i : item) : Prop :=
  match i with
  | WithSensor l None => wf_lhs l
  | WithSensor l (Some r) => wf_lhs l /\ wf_rhs r
  | NoSensor r => wf_rhs r /\ (forall x g gs, r <> Groups ([Single x] :: g :: gs))
  end.
Definition wf (t : list item) : Prop := some wf_item t.

(** ** Meaning *)

(* what was written: each sensor with each channel group; no sensor means "*" *)
Definition item_streams (i : item) : list (string * group) :=
  match i with
  | NoSensor r => list_prod ["*"] (rhs_groups r)
  | WithSensor l None => list_prod (lhs_sensors l) [[]]
  | WithSensor l (Some r) => list_prod (lhs_sensors l) (rhs_groups r)
  end.
Definition written (t : list item) : list (string * group) := flat_map item_streams t.

(* a stream object and the channel names its codes stand for *)
Definition stream_is (st : string * fused) (sensor : string) (names : list string) : Prop :=
  fst st = sensor /\ isnorm (snd st) = false /\ denotes_all (codes (snd st)) names.

(* the text of a stream *)
Definition stream_text (st : string * fused) : string := fst st ++ ":" ++ join "|" (codes (snd st)).

(* the (sensor, channel names) pairs of a list of streams *)
Definition has_stream (sts : list (string * fused)) (sensor : string) (names : list string) : Prop :=
  exists st, In st sts /\ stream_is st sensor names.

(* one stream per channel, an empty stream stays *)
Definition singles (p : string * list string) : list (string * list string) :=
  match snd p with [] => [(fst p, [])] | l => map (fun n => (fst p, [n])) l end.

Definition matches (sensor : string) (st : string * fused) : bool :=
  String.eqb (fst st) sensor || String.eqb (fst st) "*".

(* the sensors of the streams whose channels have the concise text c, in order *)
Definition sensors_with (sts : list (string * fused)) (c : string) : list string :=
  map fst (filter (fun st => match concise (snd st) with Ok f => String.eqb (fspec f) c | Err _ => false end) sts).
(* some streams have no channels, and the sensors of these streams are the sensors
   of all streams with certain channels (one stream of each or several of each) *)
Definition clash (sts : list (string * fused)) : Prop :=
  sensors_with sts "" <> [] /\
  exists st f, In st sts /\ codes (snd st) <> [] /\ concise (snd st) = Ok f /\
    (forall s, In s (sensors_with sts "") <-> In s (sensors_with sts (fspec f))) /\
    (List.length (sensors_with sts "") = 1%nat <-> List.length (sensors_with sts (fspec f)) = 1%nat).
