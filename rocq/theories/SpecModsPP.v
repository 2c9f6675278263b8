(** Comparing mods on the same map and play. *)
From Coq Require Import Reals.
From Flocq Require Import Raux Zaux Core BinarySingleNaN.
From Verif Require Import PP SpecPP SpecMods.
Open Scope Z_scope.

(** the bit of TouchDevice *)
Definition bTD := 2.

(** Mods under which a play counts no less, at the same effective AR and OD:
    Hidden and Flashlight may be added, NoFail, SpunOut, Relax and TouchDevice
    taken away, ScoreV2 not touched.  Hidden counts as harder up to AR 12 only,
    TouchDevice as easier only for ratings from one star up. *)
Record counts_more (a : attributes) (d d' : difficulty) : Prop := {
  cm_ar : d_ARReal d = d_ARReal d';
  cm_od : d_ODReal d = d_ODReal d';
  cm_hd : Z.testbit (d_Mods d) bHD = Z.testbit (d_Mods d') bHD \/ (Z.testbit (d_Mods d') bHD = true /\ (B2R (d_ARReal d) <= 12)%R);
  cm_fl : Z.testbit (d_Mods d) bFL = true -> Z.testbit (d_Mods d') bFL = true;
  cm_nf : Z.testbit (d_Mods d') bNF = true -> Z.testbit (d_Mods d) bNF = true;
  cm_so : Z.testbit (d_Mods d') bSO = true -> Z.testbit (d_Mods d) bSO = true;
  cm_rx : Z.testbit (d_Mods d') bRX = true -> Z.testbit (d_Mods d) bRX = true;
  cm_td : Z.testbit (d_Mods d) bTD = Z.testbit (d_Mods d') bTD \/
    (Z.testbit (d_Mods d) bTD = true /\ (1 <= B2R (at_Aim a))%R /\ (1 <= B2R (at_Flashlight a))%R);
  cm_v2 : Z.testbit (d_Mods d) bV2 = Z.testbit (d_Mods d') bV2 }.
(** What is assumed of math.Pow besides: the power 0.8 of a number from 1 up is not above the number. *)
Definition pow_root {M : libm} : Prop := forall x, is_finite x = true -> (1 <= B2R x)%R -> is_finite (mpow x (fq 8 10)) = true -> (B2R (mpow x (fq 8 10)) <= B2R x)%R.
