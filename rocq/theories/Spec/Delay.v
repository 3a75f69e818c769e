(** The same record at another time. *)

From Coq Require Import List ZArith.
From Verif.Base Require Import Fl.
From Verif.Model Require Import Interpolation.
Import ListNotations.

(** Every row [d] nanoseconds later. *)
Definition delayed {A} (d : Z) (rows : list (Z * A)) : list (Z * A) := map (fun r => (fst r + d, snd r)%Z) rows.
Definition all_delayed (d : Z) (l : list Z) : list Z := map (fun t => t + d)%Z l.
(** A result that may be an exception, with the rows later. *)
Definition then_delayed {A} (d : Z) (r : result (list (Z * A))) : result (list (Z * A)) :=
  match r with Ok s => Ok (delayed d s) | Raise e => Raise e end.
Definition both_delayed (d : Z) (r : result (series * series)) : result (series * series) :=
  match r with Ok p => Ok (delayed d (fst p), delayed d (snd p)) | Raise e => Raise e end.
(** What to interpolate to: given times are later, a frequency stays. *)
Definition target_delayed (d : Z) (t : itarget) : itarget := match t with TIndex l => TIndex (all_delayed d l) | t => t end.
