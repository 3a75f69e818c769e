(** What the plots of a TrendAnalysis show. *)

From Coq Require Import List ZArith String Sorted.
From Verif.Base Require Import Fl TimeSeries.
From Verif.Spec Require Import TrendRuns TrendCalls.
From Verif.Model Require Import TrendAnalysis.
Import ListNotations.
Open Scope list_scope.

Definition name_of (c : case) : string := match c with Sensor => "sensor" | Clearsky => "clearsky" end.
(** The values of two series at the times they share, in the order of time. *)
Definition paired (a b : series) (l : list (fl * fl)) : Prop :=
  exists ts, StronglySorted Z.lt ts /\ (forall t, In t ts <-> In t (times a) /\ In t (times b)) /\
    Forall2 (fun t xy => In (t, fst xy) a /\ In (t, snd xy) b) ts l.
