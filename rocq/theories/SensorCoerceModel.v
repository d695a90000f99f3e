(* Model of the conversions between channel and sensorchan specs and of
   FusedSensorChanSpec.  Definitions only. *)
From Verif Require Export SensorModel.
Local Open Scope string_scope.

(* channel_spec.py:1052-1058 ChannelSpec.from_int *)
Definition chan_from_int (n : Z) : cspec := mkC (join "|" (from_int_codes n)) None.

(* channel_spec.py:1060-1095 ChannelSpec.coerce; a bool is an int *)
Definition chan_coerce (d : cdata) : result cspec :=
  match d with
  | DChan c => Ok c
  | DFused f => Ok (mkC (fspec f) (Some [(fspec f, f)]))
  | DInt z => Ok (chan_from_int z)
  | DBool b => Ok (chan_from_int (if b then 1 else 0)%Z)
  | DStr s => Ok (mkC s None)
  | DList _ | DFloat _ | DFloatFrac | DNone => Err TypeError
  end.

(* sensorchan_spec.py:223-261, argument of coerce: a sensorchan spec of either class,
   or anything else *)
Inductive sdata := SObj (x : sspec) | SData (d : cdata).

(* sensorchan_spec.py:222-261 SensorChanSpec.coerce *)
Definition sensor_coerce (d : sdata) : result sspec :=
  match d with
  | SObj x => Ok x
  | SData (DStr s) => Ok (SText s)
  | SData (DFused f) => Ok (SText (fspec f))
  | SData (DChan c) => Ok (SText (ctext c))
  | SData d => c <- chan_coerce d ;; Ok (SText (ctext c))
  end.

(* sensorchan_spec.py:524-546 FusedSensorChanSpec.coerce; a SensorChanSpec that is not a
   FusedSensorChanSpec is not accepted (NotImplementedError) *)
Definition fused_sensor_coerce (d : sdata) : result sspec :=
  match d with
  | SObj (SFused s c) => Ok (SFused s c)
  | SData (DStr s) => sfused_from_spec s
  | _ => Err OtherError
  end.

(* sensorchan_spec.py:551-555 FusedSensorChanSpec.normalize *)
Definition sfused_normalize (x : sspec) : result sspec :=
  s <- normalize_sensor_chan (stext x) ;; sfused_from_spec s.
(* sensorchan_spec.py:557-561 FusedSensorChanSpec.concise *)
Definition sfused_concise (x : sspec) : result sspec :=
  s <- concise_sensor_chan (stext x) ;; sfused_from_spec s.
