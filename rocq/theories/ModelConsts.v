(** * ModelConsts.v - consts.rs *)
From Coq Require Import ZArith.
From Verif Require Import Num.
Open Scope Z_scope.
Open Scope num_scope.

Section Consts.
  Context {F : Type} {NF : Num F}.
  Definition cQ : F := nlit 1602176634 (-28).                    (* consts.rs 5 *)
  Definition cEV : F := cQ.                                      (* consts.rs 7 *)
  Definition cAMU : F := nlit 166053906660 (-38).                (* consts.rs 9 *)
  Definition cANGSTROM : F := nlit 1 (-10).                      (* consts.rs 11 *)
  Definition cMICRON : F := nlit 1 (-6).                         (* consts.rs 13 *)
  Definition cNM : F := nlit 1 (-9).                             (* consts.rs 15 *)
  Definition cCM : F := nlit 1 (-2).                             (* consts.rs 17 *)
  Definition cMM : F := nlit 1 (-3).                             (* consts.rs 19 *)
  Definition cEPS0 : F := nlit 88541878128 (-22).                (* consts.rs 21 *)
  Definition cA0 : F := nlit 529177210903 (-22).                 (* consts.rs 23 *)
  Definition cME : F := nlit 91093837015 (-41).                  (* consts.rs 25 *)
  Definition cSQRTPI : F := nZ 2 /! nfrac_2_sqrt_pi.             (* consts.rs 27 *)
  Definition cSQRT2PI : F := nZ 2 *! nsqrt_2 /! nfrac_2_sqrt_pi. (* consts.rs 29 *)
  Definition cC : F := nZ 299792458.                             (* consts.rs 31 *)
  (** consts.rs 33 *)
  Definition cBETHE_BLOCH_PREFACTOR : F :=
    nZ 4 *! npi *! (cQ *! cQ /! (nZ 4 *! npi *! cEPS0)) *! (cQ *! cQ /! (nZ 4 *! npi *! cEPS0)) /! cME /! cC /! cC.
  (** consts.rs 35 *)
  Definition cLINDHARD_SCHARFF_PREFACTOR : F := nlit 1212 (-3) *! cANGSTROM *! cANGSTROM *! cQ.
  (** consts.rs 37 *)
  Definition cLINDHARD_REDUCED_ENERGY_PREFACTOR : F := nZ 4 *! npi *! cEPS0 /! cQ /! cQ.
End Consts.
