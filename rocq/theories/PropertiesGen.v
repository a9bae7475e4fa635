(** Properties C119 and C120: the generated code and its descriptions. The tables [prop_code], [param_code]
    and [sec_code] are those by which the model reads and writes (PropTable.v, ParamTable.v, SecTable.v),
    in the words of the descriptions. *)
From Coq Require Import String Ascii ZArith Bool List.
From Verif Require Import Base GoStrings Types Params ParamTable PropTable SecTable LabelTable Generator GenFiles SpecGen GenProofs GenPropProofs SampleGen.
Import ListNotations.

(** C119: the parameters that are read and written, and how, are those that genParams.sh gets from params.gen, in order, ... *)
Theorem C119_parameters : map param_row (gen_params (read_names names_gen) params_gen) = map param_code all_params.
Proof. exact params_table. Qed.
Print Assumptions C119_parameters.
(** ... the components, with their fields and rules, those that genSections.sh gets from sections.gen, ... *)
Theorem C119_components : map (gsec_row (read_names names_gen)) (gen_sections (read_names names_gen) sections_gen) = map sec_code all_secs.
Proof. exact sections_table. Qed.
Print Assumptions C119_components.
(** ... and the properties those that genProperties.sh would get from properties.gen if it kept the tabs, ... *)
Theorem C119_properties_partial : map (prop_row (read_names names_gen)) (gen_props_with [LF] properties_gen) = map prop_code all_props.
Proof. exact props_table. Qed.
Print Assumptions C119_properties_partial.
(** ... as it would do with any description. *)
Theorem C119_tabs_kept ds : Forall good_prop ds -> gen_props_with [LF] (props_text ds) = map prop_meant ds.
Proof. exact (props_meant ds). Qed.
Print Assumptions C119_tabs_kept.
(** C119 is false: the script drops the tabs, so that each parameter becomes a property, ... *)
Theorem C119_tabs_lost ds : Forall good_prop ds -> gen_props (props_text ds) = flat_map props_made ds.
Proof. exact (props_are_made ds). Qed.
Print Assumptions C119_tabs_lost.
(** ... and there is no description from which it would get the code that is there. *)
Theorem C119_properties_refuted names s : map (prop_row names) (gen_props s) <> map prop_code all_props.
Proof. exact (never_the_code names s). Qed.
Print Assumptions C119_properties_refuted.
Example C119_applies : properties_gen = props_text our_props /\ Forall good_prop our_props.
Proof. exact (proj2 our_files). Qed.

(** C120: a description means what it says if no component has more than two rules, ... *)
Theorem C120_every_rule_partial names ds : ds <> [] -> Forall good_section ds -> Forall (fun d => length (rules_of (snd d)) <= 2) ds ->
  gen_sections names (sections_text ds) = map (section_meant names) ds.
Proof. exact (few_rules names ds). Qed.
Print Assumptions C120_every_rule_partial.
(** ... as it is with the one of the repository; ... *)
Example C120_applies : sections_gen = sections_text our_sections /\ Forall good_section our_sections /\ Forall (fun d => length (rules_of (snd d)) <= 2) our_sections.
Proof. exact (proj1 our_files). Qed.
(** ... but of three or more rules only the first and the last are put into the code. *)
Theorem C120_every_rule_refuted names ds : ds <> [] -> Forall good_section ds ->
  forall i d g r1 m r2, nth_error ds i = Some d -> nth_error (gen_sections names (sections_text ds)) i = Some g -> rules_of (snd d) = r1 :: m ++ [r2] ->
  gs_rules g = [rule_meant names r1; rule_meant names r2].
Proof. exact (many_rules names ds). Qed.
Print Assumptions C120_every_rule_refuted.
Example C120_refuted_applies : Forall good_section [three_rules] /\
  rules_of (snd three_rules) = (Needs, bs "GEO-LOCATION", bs "PROXIMITY") :: [(Together, bs "DURATION", bs "REPEAT")] ++ [(OneOf, bs "UID", bs "URI")].
Proof. exact three_case. Qed.
