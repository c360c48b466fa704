(* Relations between the fields that properties() reports. *)
From Coq Require Import Reals ZArith List.
From Flocq Require Import Core.
From Verif Require Import FArith ArithB64 B64Lemmas Api SpecAllF.
Local Open Scope R_scope.

Definition within (x : b64) (y M : R) : Prop := fin x /\ Rabs (bR x - y) <= 1 / 100000000000000 * M.
Definition positive (v : b64) : Prop := tame v /\ 0 < bR v.
(* f gives the fields, G is the gas constant *)
Definition relations (G : R) (f : pfield -> b64) : Prop :=
  let t := bR (f PT) in let d := bR (f PD) in let z := bR (f PZ) in let mm := bR (f PMM) in
  let cv := bR (f PCv) in let cp := bR (f PCp) in let w := bR (f PW) in
  let pt := bR (f PDpDt) in let q := bR (f PDpDd) in
  (tame (f PCv) -> tame (f PDpDt) -> positive (f PDpDd) ->
     within (f PCp) (cv + t * (pt / d) ^ 2 / q) (Rabs cv + t * (pt / d) ^ 2 / q)) /\
  (positive (f PCp) -> tame (f PDpDt) -> positive (f PDpDd) ->
     within (f PJt) ((t / d * pt / q - 1) / cp / d) ((t / d * Rabs pt / q + 1) / cp / d)) /\
  (positive (f PCp) -> positive (f PCv) -> positive (f PDpDd) -> positive (f PMM) ->
     let c := sqrt (1000 * cp / cv * q / mm) in within (f PW) c c) /\
  (positive (f PCp) -> positive (f PCv) -> positive (f PDpDd) -> positive (f PMM) -> positive (f PZ) ->
     let k := w ^ 2 * mm / (G * t * 1000 * z) in within (f PKappa) k k).
