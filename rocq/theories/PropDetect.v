(* C125: who exported findings come from. *)
From Coq Require Import String Ascii Bool Arith Lia List.
Import ListNotations.
From Verif Require Import Base BaseProofs Str StrProofs OtelModel DetectModel DetectSpec.
From Verif Require DownProofs.
Local Open Scope string_scope.
Local Open Scope list_scope.

Lemma split_whole : forall b, (forall x y, b <> (x ++ "," ++ y)%string) -> split_char "," b = [b].
Proof.
  induction b as [|c b IH]; intros H; [reflexivity|]. cbn [split_char].
  destruct (Ascii.eqb_spec c ",") as [->|Hc]; [destruct (H "" b eq_refl)|].
  rewrite IH; [reflexivity|]. intros x y ->. exact (H (String c x) y eq_refl).
Qed.

Lemma first_comma : forall s, (forall a b, s <> (a ++ "," ++ b)%string) \/
  exists x r, s = (x ++ "," ++ r)%string /\ forall a b, x <> (a ++ "," ++ b)%string.
Proof.
  induction s as [|c s IH].
  - left. intros [|x a] b; discriminate.
  - destruct (ascii_dec c ",") as [->|Hc].
    + right. exists "", s. split; [reflexivity|]. intros [|x a] b; discriminate.
    + destruct IH as [H|(x & r & -> & H)].
      * left. intros [|d a] b E; cbn in E; [congruence|]. injection E as _ E. exact (H a b E).
      * right. exists (String c x), r. split; [reflexivity|]. intros [|d a] b E; cbn in E; [congruence|].
        injection E as _ E. exact (H a b E).
Qed.

Lemma split_first x r : (forall a b, x <> (a ++ "," ++ b)%string) -> split_char "," (x ++ "," ++ r)%string = x :: split_char "," r.
Proof. intros H. cbn [append]. rewrite DownProofs.split_char_app, (split_whole x H). reflexivity. Qed.

Lemma entry_ok : forall s x, entry s x <-> In x (split_char "," s).
Proof.
  intros s x. split.
  - intros H. induction H as [x H|x r H|y r x H _ IH].
    + rewrite split_whole by exact H. left. reflexivity.
    + rewrite split_first by exact H. left. reflexivity.
    + rewrite split_first by exact H. right. exact IH.
  - assert (G : forall n s, String.length s <= n -> In x (split_char "," s) -> entry s x).
    { induction n as [|n IH]; intros t Hl H.
      - destruct t; [|cbn in Hl; lia]. destruct H as [<-|[]]. apply entry_only. intros [|d a] b; discriminate.
      - destruct (first_comma t) as [W|(y & r & -> & W)].
        + rewrite split_whole in H by exact W. destruct H as [<-|[]]. apply entry_only. exact W.
        + rewrite split_first in H by exact W. destruct H as [<-|H]; [apply entry_first; exact W|].
          apply entry_later; [exact W|]. apply IH; [|exact H]. rewrite !str_length_app in Hl. cbn in Hl. lia. }
    apply (G (String.length s)). lia.
Qed.

Lemma split_once_key : forall kv k, (forall a b, k <> (a ++ "=" ++ b)%string) ->
  ((exists v, split_once "=" kv = Some (k, v)) <-> exists v, kv = (k ++ "=" ++ v)%string).
Proof.
  induction kv as [|c kv IH]; intros k Hk.
  - split; intros [v E]; [discriminate|]. destruct k; discriminate.
  - cbn [split_once]. destruct (Ascii.eqb_spec c "=") as [->|Hc].
    + split; intros [v E].
      * injection E as <- <-. exists kv. reflexivity.
      * destruct k as [|d k]; cbn in E; [injection E as ->; exists v; reflexivity|].
        injection E as <- E. destruct (Hk "" k eq_refl).
    + destruct k as [|d k].
      * split; intros [v E]; [destruct (split_once "=" kv) as [[x y]|]; discriminate|]. cbn in E. congruence.
      * assert (Hk' : forall a b, k <> (a ++ "=" ++ b)%string) by (intros a b E; apply (Hk (String d a) b); cbn; rewrite E; reflexivity).
        specialize (IH k Hk'). split; intros [v E].
        -- destruct (split_once "=" kv) as [[x y]|]; [|discriminate]. injection E as -> -> ->.
           destruct (proj1 IH) as [w ->]; [exists v; reflexivity|]. exists w. reflexivity.
        -- cbn in E. injection E as -> E. destruct (proj2 IH) as [w Ew]; [exists v; exact E|]. rewrite Ew. exists w. reflexivity.
Qed.

Lemma user_set_ok e : user_set_service_name e = true <-> named_by_user e.
Proof.
  unfold user_set_service_name, named_by_user. rewrite orb_true_iff.
  assert (N : forall a b, "service.name" <> (a ++ "=" ++ b)%string).
  { intros a b E. assert (K : Str.any_char (fun c => Ascii.eqb c "=") "service.name" = true).
    { rewrite E. clear. induction a as [|c a IH]; [reflexivity|]. cbn in *. rewrite IH. apply orb_true_r. }
    vm_compute in K. discriminate. }
  split; intros [H|H].
  - left. destruct (env_service_name e); [eauto|discriminate].
  - right. destruct (env_attributes e) as [attrs|]; [|discriminate].
    apply existsb_exists in H as (kv & Hi & H). destruct (split_once "=" kv) as [[k v]|] eqn:Es; [|discriminate].
    apply String.eqb_eq in H. subst k. destruct (proj1 (split_once_key kv _ N)) as [w ->]; [eauto|].
    exists attrs, w. split; [reflexivity|]. apply entry_ok. exact Hi.
  - left. destruct H as [n ->]. reflexivity.
  - right. destruct H as (attrs & v & -> & H). apply entry_ok in H. apply existsb_exists.
    eexists. split; [exact H|]. destruct (proj2 (split_once_key ("service.name=" ++ v)%string _ N)) as [w E]; [exists v; reflexivity|].
    rewrite E. reflexivity.
Qed.

(* Findings are sent under the name weaver exactly when the user names no service, under no
   other name of Weaver's making, and always with the criticality and the version. *)
Theorem C125_name :
  forall version e,
    (In ("service.name", "weaver") (detect version e) <-> ~ named_by_user e) /\
    (forall n, In ("service.name", n) (detect version e) -> n = "weaver") /\
    (forall c, In ("service.criticality", c) (detect version e) <-> c = "low") /\
    (forall v, In ("service.version", v) (detect version e) <-> v = version) /\
    NoDup (map fst (detect version e)) /\
    incl (map fst (detect version e)) ["service.name"; "service.criticality"; "service.version"].
Proof.
  intros version e. pose proof (user_set_ok e) as U. unfold detect. destruct (user_set_service_name e); cbn.
  - assert (Y : named_by_user e) by (apply U; reflexivity).
    split; [intuition congruence|]. split; [intuition congruence|]. split; [intuition congruence|]. split; [intuition congruence|].
    split; [repeat constructor; cbn; intuition congruence|]. intros x Hx. cbn in *. tauto.
  - assert (Y : ~ named_by_user e) by (intros K; apply U in K; discriminate).
    split; [intuition congruence|]. split; [intuition congruence|]. split; [intuition congruence|]. split; [intuition congruence|].
    split; [repeat constructor; cbn; intuition congruence|]. intros x Hx. cbn in *. tauto.
Qed.

Example C125_name_case :
  detect "1.0" (mk_env None (Some "my.service.name=foo,deployment.environment=prod")) =
    [("service.name", "weaver"); ("service.criticality", "low"); ("service.version", "1.0")] /\
  detect "1.0" (mk_env None (Some "a=b,service.name=mine")) = [("service.criticality", "low"); ("service.version", "1.0")].
Proof. split; reflexivity. Qed.

(* Space after a comma, as the format of the variable allows, hides the user's name. *)
Theorem C125_space_refuted :
  ~ (forall version a v, ~ In ("service.name", "weaver") (detect version (mk_env None (Some (a ++ ", service.name=" ++ v)%string)))).
Proof. intros H. apply (H "1.0" "a=b" "mine"). left. reflexivity. Qed.

(* A variable set to nothing counts as a name. *)
Theorem C125_empty_refuted :
  ~ (forall version e, env_attributes e = None -> (forall n, env_service_name e = Some n -> n = "") ->
       In ("service.name", "weaver") (detect version e)).
Proof.
  intros H. specialize (H "1.0" (mk_env (Some "") None) eq_refl ltac:(cbn; congruence)). cbn in H. intuition discriminate.
Qed.

(* The attributes of the entities: each that is there, once, and no other. *)
Theorem C125_entities :
  (forall s, (forall k v, In (k, v) (service_attributes s) <->
      (k = "service.name" /\ v = sv_name s) \/
      (k = "service.criticality" /\ exists c, sv_criticality s = Some c /\ v = criticality_text c) \/
      (k = "service.version" /\ sv_version s = Some v)) /\ NoDup (map fst (service_attributes s))) /\
  (forall s, (forall k v, In (k, v) (sdk_attributes s) <->
      (k = "telemetry.sdk.language" /\ v = language_text (sd_language s)) \/
      (k = "telemetry.sdk.name" /\ v = sd_name s) \/
      (k = "telemetry.sdk.version" /\ sd_version s = Some v)) /\ NoDup (map fst (sdk_attributes s))) /\
  (forall a b, criticality_text a = criticality_text b -> a = b) /\
  (forall a b, language_text a = language_text b -> a = b).
Proof.
  split; [|split; [|split]].
  - intros [n c v0]. split.
    + intros k v. unfold service_attributes. cbn [sv_name sv_criticality sv_version]. rewrite !in_app_iff.
      destruct c as [c|], v0 as [w|]; cbn; split; intros H;
        repeat match goal with
        | H : _ \/ _ |- _ => destruct H
        | H : _ /\ _ |- _ => destruct H
        | H : exists _, _ |- _ => destruct H
        | H : False |- _ => destruct H
        | H : (_, _) = (_, _) |- _ => injection H as <- <-
        | H : Some _ = Some _ |- _ => injection H as <-
        | H : None = Some _ |- _ => discriminate
        end; subst; eauto 8.
    + destruct c, v0; cbn; repeat constructor; cbn; intuition congruence.
  - intros [l n v0]. split.
    + intros k v. unfold sdk_attributes. cbn [sd_language sd_name sd_version]. rewrite !in_app_iff.
      destruct v0 as [w|]; cbn; split; intros H;
        repeat match goal with
        | H : _ \/ _ |- _ => destruct H
        | H : _ /\ _ |- _ => destruct H
        | H : False |- _ => destruct H
        | H : (_, _) = (_, _) |- _ => injection H as <- <-
        | H : Some _ = Some _ |- _ => injection H as <-
        | H : None = Some _ |- _ => discriminate
        end; subst; eauto 8.
    + destruct v0; cbn; repeat constructor; cbn; intuition congruence.
  - intros [] []; cbn; congruence.
  - intros [] []; cbn; congruence.
Qed.

Print Assumptions C125_name.
Print Assumptions C125_space_refuted.
Print Assumptions C125_empty_refuted.
Print Assumptions C125_entities.
