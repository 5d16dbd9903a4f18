(** C33: cached results. *)
From Coq Require Import List Bool Arith ZArith.
From Verif Require Import Cache_Model Cache_Spec Cache_Proofs.
Import ListNotations.

(** C33: whatever is called on an object, with any arguments, in any order, also after
    [Line.extend], gives what the methods give without a cache. *)
Theorem C33_transparent_partial : forall (V crs box ext num : Type) same is_geo planar_box geo_box transform planar_len geo_len extent_of (parts_box : crs -> list V -> option crs -> box),
  crs_laws same is_geo transform parts_box -> forall (o : obj V crs) h, Forall not_setitem h ->
  @run V crs box ext num same is_geo planar_box geo_box transform planar_len geo_len extent_of parts_box o empty h =
  plain same is_geo planar_box geo_box transform planar_len geo_len extent_of parts_box o h.
Proof. exact transparent. Qed.
Print Assumptions C33_transparent_partial.

(** An instance: vertices on a line, two coordinate systems, the second upside down. *)
Definition zbox (l : list Z) : Z * Z := (fold_left Z.min l 1000%Z, fold_left Z.max l (-1000)%Z).
Definition zrun := @run Z bool (Z * Z) Z nat Bool.eqb (fun c => c) zbox zbox (fun a b l => if Bool.eqb a b then l else map Z.opp l) (@length Z) (fun _ => @length Z) (fun b => (snd b - fst b)%Z) (fun a l c => zbox l).
Definition zplain := @plain Z bool (Z * Z) Z nat Bool.eqb (fun c => c) zbox zbox (fun a b l => if Bool.eqb a b then l else map Z.opp l) (@length Z) (fun _ => @length Z) (fun b => (snd b - fst b)%Z) (fun a l c => zbox l).
Example C33_transparent_partial_ex :
  crs_laws Bool.eqb (fun c => c) (fun a b l => if Bool.eqb a b then l else map Z.opp l) (fun (a : bool) l (c : option bool) => zbox l) /\
  zrun (mkObj (Coords [1; 5; 3]%Z) false Connected) empty [EBbox NoArgs; EBbox (Keyword (Some true)); EBbox (Positional None); EExtent NoArgs; ELength; EBbox NoArgs; EExtent (Keyword (Some false)); ELength] =
  [SBbox (Ok (1, 5)%Z); SBbox (Ok (-5, -1)%Z); SBbox (Ok (1, 5)%Z); SExtent (Ok 4%Z); SLength (Ok 3); SBbox (Ok (1, 5)%Z); SExtent (Ok 4%Z); SLength (Ok 3)].
Proof.
  split; [| vm_compute; reflexivity].
  constructor; intros; repeat match goal with c : bool |- _ => destruct c end; cbn in *; try discriminate; reflexivity.
Qed.

(** C33 refuted: the box of a multipoint is the same before and after a vertex is replaced,
    whatever the vertices. *)
Theorem C33_setitem_refuted : forall (V crs box ext num : Type) same is_geo planar_box geo_box transform planar_len geo_len extent_of (parts_box : crs -> list V -> option crs -> box),
  crs_laws same is_geo transform parts_box -> forall vs c f i v vs', set_nth i v vs = Some vs' ->
  forall b, now_bbox same is_geo planar_box geo_box transform parts_box (mkObj (Coords vs) c Loose) (crs_arg f) = Ok b ->
  @run V crs box ext num same is_geo planar_box geo_box transform planar_len geo_len extent_of parts_box (mkObj (Coords vs) c Loose) empty [EBbox f; ESetitem i v; EBbox f] =
  [SBbox (Ok b); SNothing (Ok tt); SBbox (Ok b)].
Proof. exact stale. Qed.
Print Assumptions C33_setitem_refuted.
Example C33_setitem_refuted_ex :
  zrun (mkObj (Coords [1; 5; 3]%Z) false Loose) empty [EBbox NoArgs; ESetitem 1 9%Z; EBbox NoArgs] <>
  zplain (mkObj (Coords [1; 5; 3]%Z) false Loose) [EBbox NoArgs; ESetitem 1 9%Z; EBbox NoArgs].
Proof. vm_compute. discriminate. Qed.

(** C33 refuted: after [Line.extend] the box, the extent and the length raise. *)
Theorem C33_extend_refuted : forall (V crs box ext num : Type) same is_geo planar_box geo_box transform planar_len geo_len extent_of (parts_box : crs -> list V -> option crs -> box),
  crs_laws same is_geo transform parts_box -> forall (o : obj V crs) vs f, okind o <> Parts -> exists e1 e2 e3,
  @run V crs box ext num same is_geo planar_box geo_box transform planar_len geo_len extent_of parts_box o empty [EExtend vs; EBbox f; EExtent f; ELength] =
  [SNothing (Ok tt); SBbox (Raise e1); SExtent (Raise e2); SLength (Raise e3)].
Proof. exact extend_breaks. Qed.
Print Assumptions C33_extend_refuted.
Example C33_extend_refuted_ex :
  zrun (mkObj (Coords [1; 5; 3]%Z) false Connected) empty [ELength; EExtend [7]%Z; ELength; EBbox (Keyword (Some true))] =
  [SLength (Ok 3); SNothing (Ok tt); SLength (Raise TypeError); SBbox (Raise AttributeError)].
Proof. vm_compute. reflexivity. Qed.
