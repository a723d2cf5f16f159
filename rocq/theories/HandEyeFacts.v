(** * Reduction of the hand-eye model on finite inputs. *)

From Coq Require Import Reals ZArith Bool List Lra Psatz.
From Verif Require Import Num Py XReal XFacts Quat DualQuat HandEye Spec Embed QuatFacts QuatTrig
  QuatRot DualFacts ScrewFacts ListFacts.
Import ListNotations.
Local Open Scope R_scope.

(** sign convention used by align_paths_at_index *)
Definition rflip (x : rdq) : rdq := if Rlt_dec (qs (dr x)) 0 then dqneg x else x.
Lemma flip_negative_in x : flip_negative (inD x) = inD (rflip x).
Proof.
  unfold flip_negative, rflip. unfold n0; cbn [lit XR ltb inD rot inQ qw xltb Rlit]. unfold Rltb.
  destruct (Rlt_dec (qs (dr x)) 0); [now rewrite dneg_in|easy].
Qed.
Lemma rflip_cases x : rflip x = x \/ rflip x = dqneg x.
Proof. unfold rflip. destruct (Rlt_dec _ _); auto. Qed.
Lemma rflip_pos x : 0 <= qs (dr (rflip x)).
Proof. unfold rflip. destruct (Rlt_dec (qs (dr x)) 0); simpl; lra. Qed.
Lemma rflip_unit x : unitdq x -> unitdq (rflip x).
Proof. intros; unfold rflip. destruct (Rlt_dec _ _); auto using unitdq_neg. Qed.
Lemma rflip_id x : 0 <= qs (dr x) -> rflip x = x.
Proof. intros. unfold rflip. destruct (Rlt_dec _ _); lra || easy. Qed.

Lemma rflip_one : rflip dqone = dqone.
Proof. apply rflip_id. simpl; lra. Qed.

Lemma dq_list_in a : dq_list (inD a) = map Fin
  [v1 (qv (dr a)); v2 (qv (dr a)); v3 (qv (dr a)); qs (dr a);
   v1 (qv (dd a)); v2 (qv (dd a)); v3 (qv (dd a)); qs (dd a)].
Proof. reflexivity. Qed.
Lemma is_origin_one : is_origin (inD dqone) = true.
Proof.
  unfold is_origin. rewrite didentity_in, dq_list_in. unfold lit; cbn [XR]. rewrite Rlit_1e8.
  apply allclose_refl_fin. lra.
Qed.

Lemma align_in l k p : nth_error l k = Some p -> tiny < hnorm (dr p) ->
  align_paths_at_index (map inD l) k
  = Ok (map inD (rotl k (map (fun x => rflip (dqmul (dqinv p) x)) l))).
Proof.
  intros H P. unfold align_paths_at_index. rewrite index_map, (index_some _ _ _ H). cbn [bind].
  rewrite dinv_big by easy. cbn [bind].
  set (m := map (fun x => rflip (dqmul (dqinv p) x)) l).
  assert (E : map (fun x : dquat => flip_negative (dmul (inD (dqinv p)) x)) (map inD l) = map inD m).
  { unfold m. rewrite !map_map. apply map_ext. intros x. now rewrite dmul_in, flip_negative_in. }
  rewrite E. fold (rotl k (map inD m)). rewrite rotl_map.
  assert (K : (k < length l)%nat) by (apply nth_error_Some; congruence).
  assert (F : nth_error (rotl k m) 0 = Some dqone).
  { rewrite rotl_nth by (unfold m; rewrite map_length; lia).
    rewrite Nat.add_0_r, Nat.mod_small by (unfold m; rewrite map_length; lia).
    unfold m. rewrite nth_error_map, H. cbn [option_map].
    rewrite dqmul_inv_l by (apply hnorm_pos_iff; unfold tiny in P; lra). now rewrite rflip_one. }
  rewrite index_map, (index_some _ _ _ F). cbn [bind].
  rewrite is_origin_one. reflexivity.
Qed.
