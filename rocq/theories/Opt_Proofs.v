From Coq Require Import String Ascii.
From Coq Require Import List Bool Arith Lia.
From Verif Require Import Opt_Model Opt_Spec.
Import ListNotations.
Open Scope string_scope.

Lemma app_length : forall a b, String.length (a ++ b) = String.length a + String.length b.
Proof. induction a as [| c a IH]; intros b; cbn; [reflexivity | rewrite IH; reflexivity]. Qed.
Lemma app_assoc : forall a b c, a ++ (b ++ c) = (a ++ b) ++ c.
Proof. induction a as [| x a IH]; intros b c; cbn; [reflexivity | rewrite IH; reflexivity]. Qed.
Lemma substring_all : forall s, substring 0 (String.length s) s = s.
Proof. induction s as [| c s IH]; cbn; [reflexivity | rewrite IH; reflexivity]. Qed.
Lemma substring_left : forall a b, substring 0 (String.length a) (a ++ b) = a.
Proof. induction a as [| c a IH]; intros b; cbn; [destruct b; reflexivity | rewrite IH; reflexivity]. Qed.
Lemma substring_right : forall a b, substring (String.length a) (String.length b) (a ++ b) = b.
Proof. induction a as [| c a IH]; intros b; cbn; [apply substring_all | apply IH]. Qed.
Lemma substring_split : forall s n, n <= String.length s -> s = substring 0 n s ++ substring n (String.length s - n) s.
Proof.
  induction s as [| c s IH]; intros n H; cbn [String.length] in *; [destruct n; [reflexivity | lia] |].
  destruct n as [| n]; [cbn; rewrite substring_all; reflexivity |].
  cbn [substring Nat.sub append]. f_equal. apply IH. lia.
Qed.
Lemma endswith_spec : forall s suf, endswith s suf = true <-> ends s suf.
Proof.
  intros s suf. unfold endswith, ends. rewrite andb_true_iff, Nat.leb_le, String.eqb_eq. split.
  - intros [L E]. exists (substring 0 (String.length s - String.length suf) s). rewrite <- E at 2.
    pose proof (substring_split s (String.length s - String.length suf) ltac:(lia)) as X. replace (String.length s - (String.length s - String.length suf)) with (String.length suf) in X by lia. exact X.
  - intros [p ->]. rewrite app_length. split; [lia |]. replace (String.length p + String.length suf - String.length suf) with (String.length p) by lia. apply substring_right.
Qed.
Lemma get_filenames_shp : forall p, get_filenames (p ++ ".shp") = (p ++ ".shp", p ++ ".shx", p ++ ".dbf").
Proof.
  intros p. unfold get_filenames. rewrite (proj2 (endswith_spec (p ++ ".shp") ".shp")) by (exists p; reflexivity).
  rewrite app_length. replace (String.length p + String.length ".shp" - 4) with (String.length p) by (cbn; lia). rewrite substring_left. reflexivity.
Qed.
Lemma get_filenames_other : forall s, ~ ends s ".shp" -> get_filenames s = (s ++ ".shp", s ++ ".shx", s ++ ".dbf").
Proof.
  intros s N. unfold get_filenames. destruct (endswith s ".shp") eqn:E; [apply endswith_spec in E; contradiction | reflexivity].
Qed.
Theorem written_read : forall name, read_name name = to_shapefile_name name.
Proof.
  intros name. unfold read_name, to_shapefile_name. destruct (endswith name ".shp") eqn:E.
  - apply endswith_spec in E. destruct E as [p ->]. rewrite get_filenames_shp. reflexivity.
  - rewrite get_filenames_other; [reflexivity |]. intros X. apply endswith_spec in X. congruence.
Qed.
Theorem names : forall p, get_filenames (p ++ ".shp") = (p ++ ".shp", p ++ ".shx", p ++ ".dbf") /\
  (~ ends p ".shp" -> get_filenames p = get_filenames (p ++ ".shp")).
Proof. intros p. split; [apply get_filenames_shp |]. intros N. rewrite get_filenames_shp. apply get_filenames_other. exact N. Qed.
Lemma app_inj_l : forall a b c : string, a ++ b = a ++ c -> b = c.
Proof. induction a as [| x a IH]; cbn; intros b c H; [exact H | injection H as H; auto]. Qed.
Lemma app_nil_r' : forall a, a ++ "" = a.
Proof. induction a as [| x a IH]; cbn; [reflexivity | rewrite IH; reflexivity]. Qed.
Theorem written_shapefile : forall name, read_name name = write_shapefile_name name <-> ends name ".shp".
Proof.
  intros name. rewrite written_read. unfold to_shapefile_name, write_shapefile_name. rewrite <- endswith_spec.
  destruct (endswith name ".shp"); split; try reflexivity; intros H; [| discriminate].
  exfalso. assert (name ++ ".shp" = name ++ "") as X by (rewrite app_nil_r'; exact H). apply app_inj_l in X. discriminate.
Qed.

(* ---- options *)
Lemma compressions_spec : forall c, In c compressions -> compress_option (Some c) = [("COMPRESS=" ++ c)%string].
Proof. intros c H. cbn in H. destruct H as [<- | [<- | [<- | [<- | []]]]]; reflexivity. Qed.
Lemma compressions_other : forall c, ~ In c compressions -> compress_option (Some c) = [].
Proof.
  intros c H. unfold compress_option. cbn in H.
  destruct (c =? "LZW") eqn:A; [apply String.eqb_eq in A; subst; exfalso; apply H; auto |].
  destruct (c =? "PACKBITS") eqn:B; [apply String.eqb_eq in B; subst; exfalso; apply H; auto |].
  destruct (c =? "DEFLATE") eqn:C; [apply String.eqb_eq in C; subst; exfalso; apply H; auto |].
  destruct (c =? "LZMA") eqn:D; [apply String.eqb_eq in D; subst; exfalso; apply H; auto 6 |]. reflexivity.
Qed.
Theorem compressed : forall c tiled kw, In c compressions -> first_value "COMPRESS" c (to_geotiff_options (Some c) tiled kw).
Proof.
  intros c tiled kw H. unfold to_geotiff_options, write_options. rewrite (compressions_spec c H).
  exists [], (map (fun kv => fst kv ++ "=" ++ snd kv) kw). split; [reflexivity | intros o v []].
Qed.
Theorem keywords : forall compress tiled kw k v, In (k, v) kw -> In (k ++ "=" ++ v) (to_geotiff_options compress tiled kw).
Proof.
  intros compress tiled kw k v H. unfold to_geotiff_options, write_options. apply in_or_app. right. cbn [app].
  apply in_map_iff. exists (k, v). auto.
Qed.
Theorem only : forall compress tiled kw o, In o (to_geotiff_options compress tiled kw) ->
  (exists c, compress = Some c /\ In c compressions /\ o = "COMPRESS=" ++ c) \/ exists k v, In (k, v) kw /\ o = k ++ "=" ++ v.
Proof.
  intros compress tiled kw o H. unfold to_geotiff_options, write_options in H. apply in_app_or in H. destruct H as [H | H].
  - left. destruct compress as [c |]; [| contradiction]. destruct (in_dec string_dec c compressions) as [I | N].
    + rewrite (compressions_spec c I) in H. destruct H as [<- | []]. exists c. auto.
    + rewrite (compressions_other c N) in H. contradiction.
  - right. cbn [app] in H. apply in_map_iff in H. destruct H as ((k, v) & <- & I). exists k, v. auto.
Qed.
Theorem untiled : forall compress kw, to_geotiff_options compress true kw = to_geotiff_options compress false kw.
Proof. reflexivity. Qed.
Theorem tiled : forall compress kw, In "TILED=YES" (write_options compress true kw).
Proof. intros compress kw. unfold write_options. apply in_or_app. right. left. reflexivity. Qed.
Theorem unknown : forall c tiled kw, ~ In c compressions -> to_geotiff_options (Some c) tiled kw = to_geotiff_options None tiled kw.
Proof. intros c tiled kw H. unfold to_geotiff_options, write_options. rewrite (compressions_other c H). reflexivity. Qed.
Theorem keyword_compress : forall v,
  first_value "COMPRESS" "PACKBITS" (to_geotiff_options default_compress false [("COMPRESS", v)]) /\
  In ("COMPRESS=" ++ v) (to_geotiff_options default_compress false [("COMPRESS", v)]).
Proof.
  intros v. split; [apply compressed; cbn; auto |]. unfold to_geotiff_options, write_options, default_compress. cbn. auto.
Qed.
