(* C117: what a resolved registry publishes, from its conversion to the file and back. *)
From Coq Require Import String Ascii Bool Arith ZArith NArith Lia Sorted Permutation List.
Import ListNotations.
From Verif Require Import Base Json SemTypes Resolved ConvertModel.
From Verif Require ConvertSpec PropConvert UrlModel.
From Verif Require Import PubModel PubSpec PubSpec2 PubProofs PubProofs4 PubProofs6.
Local Open Scope string_scope.

(* The whole way: a resolved registry is converted to version 2 and published.  If it could be converted, a
   registry that depends on it reads the very schema of the conversion from the file - exactly when no member of an
   enumeration was deprecated with a mere text. *)
Theorem C117_resolved : forall to_f64 url_parse hash order name_of url_fits s out,
  (forall l, Permutation l (order l)) ->
  resolved_registry to_f64 url_parse s ->
  convert hash order name_of url_fits s = Converted out ->
  well_formed to_f64 url_parse out /\
  (~ given_member_deprecated_by_text s -> read_schema to_f64 url_parse (write_schema out) = Some (kept out)) /\
  (given_member_deprecated_by_text s -> read_schema to_f64 url_parse (write_schema out) = None).
Proof.
  intros f u hash order name_of uf s out P R H.
  pose proof (converted_fine f u hash order name_of uf P s R out H) as W.
  pose proof (converted_text hash order name_of uf P s out H) as T.
  split; [exact W|]. split; intros G.
  - apply (schema_back f u out W). intros M. apply G, T. exact M.
  - apply (schema_lost f u out W). apply T. exact G.
Qed.
Print Assumptions C117_resolved.

(* the sample registry of the conversion meets the hypotheses *)
Definition sample_parse (u : string) : option UrlModel.parsed_url :=
  Some {| UrlModel.pu_scheme := "https"; UrlModel.pu_path := if String.eqb u "https://k8s.test/schemas/2.0" then "/schemas/2.0" else "/schemas/1.0"; UrlModel.pu_opaque := false |}.
Example C117_resolved_case :
  resolved_registry (fun _ => 0%N) sample_parse ConvertSpec.sample_source /\
  ~ given_member_deprecated_by_text ConvertSpec.sample_source /\
  exists out, convert (fun _ => 0%N) (fun l => l) PropConvert.sample_name (fun _ => true) ConvertSpec.sample_source = Converted out.
Proof.
  split; [|split].
  - constructor; cbn.
    + exists "https://acme.test/schemas/1.0". eexists. split; reflexivity.
    + repeat (constructor; [split; [intros ms E; discriminate E|split; [intros e [= <-]; exists (JArr [JStr "a"]); reflexivity|intros m E; discriminate E]]|]).
      constructor.
    + repeat (constructor; [intros m E; discriminate E|]). constructor.
    + unfold small. cbn. lia.
    + split; [|split; [|unfold small; cbn; lia]].
      * constructor; [exists "https://k8s.test/schemas/2.0"; eexists; split; reflexivity|].
        constructor; [exists "https://otel.test/schemas/1.0"; eexists; split; reflexivity|constructor].
      * repeat constructor.
  - intros (a & ms & e & t & Ha & T & _). cbn in Ha. decompose [or] Ha; subst; try discriminate T. contradiction.
  - eexists. vm_compute. reflexivity.
Qed.
