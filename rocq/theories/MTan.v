(** The tangent: vector.rs 5224-5326. *)
From Coq Require Import Reals.
From Flocq Require Import Core.
From Verif Require Import Base F32 Intrin Lane MVec MTrig MRound.

(** _mm_cvttps_epi32 of one lane, at both instances: truncation, and -2^31 when out of range (a bit pattern at [FL]) *)
Class CvtInt (L : Lane) : Type := MkCvt { cvt_int : T L -> Z }.
Definition Rcvtt (x : R) : Z := let n := Ztrunc x in if andb (Z.leb (- 2 ^ 31) n) (Z.ltb n (2 ^ 31)) then n else (- 2 ^ 31)%Z.
Instance RC : CvtInt RL := MkCvt RL Rcvtt.
Instance FC : CvtInt FL := MkCvt FL cvtt_lane.

Section Tan.
Context {L : Lane} {lm : Libm L} {ci : CvtInt L}.
Notation vec := (quad (T L)).
(** TanCoefficients0, TanCoefficients1, TanConstants: 5247-5249 *)
Definition TN1 : T L := tlit (-7830209) (-24). (** -4.667168334e-1 *)
Definition TN2 : T L := tlit 13778165 (-29). (** 2.566383229e-2 *)
Definition TN3 : T L := tlit (-10713893) (-35). (** -3.118153191e-4 *)
Definition TN4 : T L := tlit 1095541 (-41). (** 4.981943399e-7 *)
Definition TN5 : T L := tlit (-8951215) (-26). (** -1.333835001e-1 *)
Definition TN6 : T L := tlit 14709781 (-32). (** 3.424887824e-3 *)
Definition TN7 : T L := tlit (-9819577) (-39). (** -1.786170734e-5 *)
Definition TNC0 : T L := tlit 13176795 (-23). (** 1.570796371 *)
Definition TNC1 : T L := tlit 8758025 (-57). (** 6.077100628e-11 *)
Definition TNEps : T L := tlit 1 (-12). (** 0.000244140625 *)
Definition TwoDivPi : T L := tlit 10680707 (-24). (** 0.63661977228 *)
(** 2841-2872, SSE branch *)
Definition vinbounds (V Bounds : vec) : quad bool := mand (vle V Bounds) (vle (vmul Bounds vneg_one) V).
(** 5224-5326; VBIsEven is [cvttps(|VA|) & 1 == 0] lane by lane *)
Definition XMVectorTan (b : backend) (V : vec) : vec :=
  match b with
  | Scalar => Q (m_tan (qx V)) (m_tan (qy V)) (m_tan (qz V)) (m_tan (qw V))
  | _ =>
    let VA := XMVectorMultiply b V (qrep TwoDivPi) in
    let VA := XMVectorRound b VA in
    let VC := XMVectorNegativeMultiplySubtract b VA (qrep TNC0) V in
    let VB := XMVectorAbs b VA in
    let VC := XMVectorNegativeMultiplySubtract b VA (qrep TNC1) VC in
    let VC2 := XMVectorMultiply b VC VC in
    let VBIsEven := qmap (fun a => Z.eqb (Z.land (cvt_int a) 1) 0) VB in
    let N := XMVectorMultiplyAdd b VC2 (qrep TN7) (qrep TN6) in
    let D := XMVectorMultiplyAdd b VC2 (qrep TN4) (qrep TN3) in
    let N := XMVectorMultiplyAdd b VC2 N (qrep TN5) in
    let D := XMVectorMultiplyAdd b VC2 D (qrep TN2) in
    let N := XMVectorMultiply b VC2 N in
    let D := XMVectorMultiplyAdd b VC2 D (qrep TN1) in
    let N := XMVectorMultiplyAdd b VC N VC in
    let VCNearZero := vinbounds VC (qrep TNEps) in
    let D := XMVectorMultiplyAdd b VC2 D vone in
    let N := vsel N VC VCNearZero in
    let D := vsel D vone VCNearZero in
    let R0 := XMVectorNegate b N in
    let R1 := XMVectorDivide b N D in
    let R0 := XMVectorDivide b D R0 in
    let VIsZero := veq V vzero in
    let Result := vsel R0 R1 VBIsEven in
    vsel Result vzero VIsZero
  end.
End Tan.
