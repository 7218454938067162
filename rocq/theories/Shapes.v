From Verif Require Import Base.
(** The data types of collision.rs: shared by the model and the specification. *)
(** [XMFLOAT3], src/lib.rs *)
Record float3 (A : Type) : Type := F3 { fx : A; fy : A; fz : A }.
Arguments F3 {A}. Arguments fx {A}. Arguments fy {A}. Arguments fz {A}.
(** collision.rs 10-30 *)
Inductive ContainmentType : Set := DISJOINT | INTERSECTS | CONTAINS.
Inductive PlaneIntersectionType : Set := FRONT | INTERSECTING | BACK.
(** collision.rs 32-108 *)
Record Sphere (A : Type) : Type := MkSphere { sp_Center : float3 A; sp_Radius : A }.
Record Box (A : Type) : Type := MkBox { bx_Center : float3 A; bx_Extents : float3 A }.
Record OBox (A : Type) : Type := MkOBox { ob_Center : float3 A; ob_Extents : float3 A; ob_Orientation : quad A }.
Record Frustum (A : Type) : Type := MkFrustum {
  fr_Origin : float3 A; fr_Orientation : quad A;
  fr_RightSlope : A; fr_LeftSlope : A; fr_TopSlope : A; fr_BottomSlope : A; fr_Near : A; fr_Far : A }.
Arguments MkSphere {A}. Arguments sp_Center {A}. Arguments sp_Radius {A}.
Arguments MkBox {A}. Arguments bx_Center {A}. Arguments bx_Extents {A}.
Arguments MkOBox {A}. Arguments ob_Center {A}. Arguments ob_Extents {A}. Arguments ob_Orientation {A}.
Arguments MkFrustum {A}. Arguments fr_Origin {A}. Arguments fr_Orientation {A}. Arguments fr_RightSlope {A}.
Arguments fr_LeftSlope {A}. Arguments fr_TopSlope {A}. Arguments fr_BottomSlope {A}. Arguments fr_Near {A}. Arguments fr_Far {A}.
