(** Corollaries in the form in which Grid_Props states them. *)
From Coq Require Import List ZArith QArith Qround Qabs Bool Lia Lqa.
From Verif Require Import Band_Model Band_Spec Band_IndexModel Band_IndexSpec Band_Proofs
  Band_IndexProofs Band_MaskProofs Grid_Model Grid_Spec Grid_Proofs Grid_OpsProofs Grid_ResizeProofs.
Import ListNotations.
Open Scope Z_scope.

Lemma world_positions : forall T x y, invertible T -> ~ (dy T == 0)%Q ->
  exists i j, positions T x y = Some (i, j) /\
    peq (world T (i + (1 # 2)) (j + (1 # 2)))%Q (x, y).
Proof. exact positions_spec. Qed.
Lemma coord_int : forall T i j ny nx, invertible T -> ~ (dy T == 0)%Q ->
  exists r, coord_getitem T ny nx (KInt i) (KInt j) = Ok r /\ shp r = [] /\
    peq (elt r []) (centre T i j) /\
    indices_ T (fst (elt r [])) (snd (elt r [])) = Some (i, j).
Proof.
  intros T i j ny nx I D. eexists. split; [reflexivity|]. split; [reflexivity|]. cbn [elt].
  split; [apply coord_centre|apply indices_centre; assumption].
Qed.
Lemma indices_contain : forall T x y, invertible T -> ~ (dy T == 0)%Q ->
  exists i j u v, indices_ T x y = Some (i, j) /\ peq (world T u v) (x, y) /\
    (inject_Z i <= u <= inject_Z i + 1 /\ inject_Z j <= v <= inject_Z j + 1)%Q.
Proof.
  intros T x y I D. destruct (world_positions T x y I D) as (i & j & E & P).
  exists (rint i), (rint j), (i + (1 # 2))%Q, (j + (1 # 2))%Q. unfold indices_. rewrite E.
  split; [reflexivity|]. split; [exact P|].
  pose proof (rint_near i). pose proof (rint_near j). clear - H H0. split; split; lra.
Qed.
Lemma narrow_default : forall (V : Type) (junk : Z -> Z -> V) v0 g T H W nb F nodata,
  grid_is g T H W nb F nodata -> 0 < H -> 0 < W < 4 ->
  forall fuel, aschunks junk v0 fuel g (-1, -1) (0, 0) = None.
Proof.
  intros V junk v0 g T H W nb F nodata G HH HW fuel.
  rewrite (default_size V junk v0 fuel g T H W nb F nodata (0, 0) G). unfold aschunks.
  destruct (grid_size _ _ _ _ _ _ _ _ G) as (-> & _).
  assert (E : W / 4 = 0) by (apply Z.div_small; lia). rewrite E. cbn [fst snd Z.eqb andb].
  assert (0 <= H / 4) by (apply Z.div_pos; lia).
  apply (loop_forever V junk v0 g T H W nb F nodata 0 (H / 4) 0 G); lia.
Qed.
Lemma bbox_extent : forall T H W xmin xmax ymin ymax, extent T H W false = (xmin, xmax, ymin, ymax) ->
  bbox T H W = (xmin, ymin, xmax, ymax).
Proof. intros T H W a b c d E. unfold bbox. rewrite E. reflexivity. Qed.

Section G.
Variable V : Type.
Variable junk : Z -> Z -> V.
Variable isnan : V -> bool.
Variable veq : V -> V -> bool.

Lemma data_mask_ok : forall g T H W nb F nodata, grid_is g T H W nb F nodata ->
  exists m, data_mask junk isnan veq g = Ok (Mask2 H W m) /\
    forall y x, 0 <= y < H -> 0 <= x < W ->
      m y x = true <-> (forall k, 0 <= k < nb -> is_data isnan veq nodata (F k y x)).
Proof. intros g T H W nb F nodata G. exact (data_mask_spec V junk nodata isnan veq g T H W nb F nodata G). Qed.

Lemma is_data_dec : forall nodata v, is_data isnan veq nodata v \/ ~ is_data isnan veq nodata v.
Proof.
  intros nodata v. unfold is_data. destruct (isnan nodata), (isnan v), (veq v nodata);
    (left; split; intro; congruence) || (right; intros [A B]; specialize (A eq_refl) || specialize (B eq_refl); congruence).
Qed.

Lemma set_nodata_ok : forall g T H W nb F nodata val,
  grid_is g T H W nb F nodata ->
  exists g' F', set_nodata_value junk isnan veq g val = (g', None) /\
    grid_is g' T H W nb F' val /\
    (forall k y x, 0 <= k < nb -> 0 <= y < H -> 0 <= x < W ->
      (is_data isnan veq nodata (F k y x) -> F' k y x = F k y x) /\
      (~ is_data isnan veq nodata (F k y x) -> F' k y x = val)) /\
    ((isnan val = true \/ veq val val = true) ->
     (forall k y x, 0 <= k < nb -> 0 <= y < H -> 0 <= x < W ->
        is_data isnan veq nodata (F k y x) -> is_data isnan veq val (F k y x)) ->
     forall k y x, 0 <= k < nb -> 0 <= y < H -> 0 <= x < W ->
        (is_data isnan veq val (F' k y x) <-> is_data isnan veq nodata (F k y x))).
Proof.
  intros g T H W nb F nodata val G.
  destruct (set_nodata_spec V junk nodata isnan veq g T H W nb F nodata val G) as (g' & F' & E & G' & P).
  exists g', F'. split; [exact E|]. split; [exact G'|]. split; [exact P|].
  intros Pv Pd k y x Hk Hy Hx. destruct (P k y x Hk Hy Hx) as [P1 P2].
  destruct (is_data_dec nodata (F k y x)) as [D|D].
  - rewrite (P1 D). split; intro; [exact D|apply Pd; assumption].
  - rewrite (P2 D). split; intro A; [|contradiction]. exfalso. destruct A as [A1 A2].
    destruct (isnan val) eqn:N; [specialize (A1 eq_refl); congruence|].
    specialize (A2 eq_refl). destruct Pv; congruence.
Qed.

Lemma apply_elementwise : forall g T H W F nodata (f : V -> V),
  grid_is g T H W 1 F nodata ->
  exists g' F', apply junk isnan veq g (map f) = (g', None) /\
    grid_is g' T H W 1 F' nodata /\
    forall y x, 0 <= y < H -> 0 <= x < W ->
      (is_data isnan veq nodata (F 0 y x) -> F' 0 y x = f (F 0 y x)) /\
      (~ is_data isnan veq nodata (F 0 y x) -> F' 0 y x = F 0 y x).
Proof.
  intros g T H W F nodata f G.
  destruct (apply_spec V junk nodata isnan veq g T H W F nodata (map f) G
              (fun l => map_length f l)) as (g' & F' & E & G' & M & P).
  exists g', F'. split; [exact E|]. split; [exact G'|]. intros y x Hy Hx.
  split; [|apply P; assumption]. intro D.
  apply (isdata_spec V nodata) in D.
  assert (In (y, x) (true_cells H W (fun y x => isdata isnan veq nodata (F 0 y x)))).
  { apply in_true_cells. auto. }
  rewrite map_map in M. clear - M H0. induction (true_cells H W _) as [|p l IH]; [contradiction|].
  cbn [map] in M. injection M as M1 M2. destruct H0 as [-> | H0]; [exact M1|]. apply IH; assumption.
Qed.

End G.

Lemma combine_ok : forall (V : Type) (junk : Z -> Z -> V) v0 (op : V -> V -> V) g h T H W nb F F2 nodata nodata2,
  grid_is g T H W nb F nodata -> grid_is h T H W nb F2 nodata2 ->
  exists r, combine_grids junk v0 op g h = Ok r /\
    grid_is r T H W nb (fun k i j => op (F k i j) (F2 k i j)) nodata.
Proof. intros V junk v0 op. exact (combine_spec V junk v0 (fun _ => false) (fun _ _ => false) op). Qed.

Lemma vertex_spec : forall junk T ny nx i j, 0 <= i < ny -> 0 <= j <= nx ->
  nrow (vertex_coords junk T ny nx) = ny + 1 /\ ncol (vertex_coords junk T ny nx) = nx + 1 /\
  peq (at_ (vertex_coords junk T ny nx) i j) (world T (inject_Z i) (inject_Z j)).
Proof.
  intros junk T ny nx i j Hi Hj. split; [reflexivity|]. split; [reflexivity|].
  unfold vertex_coords. cbn [at_]. destruct (i <? ny) eqn:E; [|lia]. split; reflexivity.
Qed.
Lemma vertex_last : forall junk T ny nx j, at_ (vertex_coords junk T ny nx) ny j = junk ny j.
Proof. intros. unfold vertex_coords. cbn [at_]. rewrite Z.ltb_irrefl. reflexivity. Qed.
