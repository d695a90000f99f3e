(* Vocabulary for the theorems on metadata histories. *)
From Verif Require Import HistModel.
Local Open Scope Z_scope.

(* f stands for n channels *)
Definition counts (f : fused) (n : Z) : Prop :=
  exists names, denotes_all (codes f) names /\ n = Z.of_nat (List.length names).

(* a FusedChannelSpec as its methods make them *)
Definition good_data (d : option cdata) : Prop := match d with Some (DFused f) => good f | _ => True end.


(** ** Which objects are built on which *)
(* objects referred to by another object *)
Definition refers (o : obj) (i : nat) : Prop :=
  match o_kind o with KView s => i = s | KConcat ps => In i ps | _ => False end.
Definition referenced (h : heap) (i : nat) : Prop := exists o, In o h /\ refers o i.

(* j shows what i shows: it is i, or a warp, crop of all bands, overview, dequantization or
   xarray cast, without names of its own, of an image that does *)
Inductive follows (h : heap) (i : nat) : nat -> Prop :=
| follows_self : follows h i i
| follows_view j s o : get_obj h j = Some o -> o_kind o = KView s -> o_names o = None -> follows h i s -> follows h i j.

(** ** Histories *)
(* Every call of the history meets P in the heap it is made in. *)
Fixpoint every_call (P : heap -> hop -> Prop) (h : heap) (ops : list hop) : Prop :=
  match ops with [] => True | op :: ops' => P h op /\ every_call P (hnext h op) ops' end.

(* Arrays have as many bands as names; what is assigned to .channels agrees with the
   number the image then reports, and does not name an image that others are built on,
   unless it had names for as many channels before. *)
Definition honest (h : heap) (op : hop) : Prop :=
  match op with
  | HLoad _ ch _ | HNans _ ch => good_data ch
  | HArray _ _ b ch => good_data ch /\ forall f n, set_meta ch = Ok (Some f, n) -> counts f b
  | HSet i ch =>
      good_data ch /\
      forall h' f, hstep h (HSet i ch) = Ok h' -> channels h' i = Some f ->
        (exists n, num_channels h' i = Some n /\ counts f n) /\
        (referenced h i -> exists f0 n, channels h i = Some f0 /\ counts f0 n /\ counts f n)
  | _ => True
  end.

(* Missing data has a size and channels; images are put together, and dequantized, when
   their sizes and numbers of channels are known; .channels is not reset. *)
Definition careful (h : heap) (op : hop) : Prop :=
  let known d := full_size d = true in
  match op with
  | HNans d ch => known d /\ ch <> None
  | HConcat ps d =>
      (known d \/ d = None /\ ps <> [] /\ Forall (fun p => known (size_of h p)) ps) /\
      Forall (fun p => num_channels h p <> None) ps
  | HDequant i => size_of h i = None \/ known (size_of h i)
  | HSet _ ch => ch <> None
  | _ => True
  end.
