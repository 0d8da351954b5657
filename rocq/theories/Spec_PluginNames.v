(** Small independent definitions for the names of plugins. *)
From Verif Require Import PyStr PyDict Model_Parser Model_PluginNames.

(** The class of a plugin: what follows the last dot of its Python name. *)
Definition class_of (path c : str) : Prop := exists m, path = m ++ 46%N :: c /\ ~ In 46%N c.
(** The parser knows the names of the table, and a plugin that was loaded is known by its class. *)
Definition usual {X} (E : penv X) : Prop :=
  (forall n, e_known E n = dget n reimplemented_plugins) /\
  (forall x path p x' c, e_load E x path p = LLoaded x' -> class_of path c -> In c (e_plugins E x')).
(** The plugins of the documentation (docs/pad.plugins.*.rst), under the names they have in SpamAssassin. *)
Definition documented : list str :=
  [$"AutoLearnThreshold"; $"AWL"; $"BodyEval"; $"DKIM"; $"DNSEval"; $"DumpText";
   $"FreeMail"; $"HeaderEval"; $"ImageInfo"; $"MIMEEval"; $"PDFInfo"; $"Pyzor";
   $"Razor2"; $"RelayCountry"; $"RelayEval"; $"ReplaceTags"; $"Shortcircuit"; $"SpamCop";
   $"SPF"; $"TextCat"; $"URIDetail"; $"URIEval"; $"WhiteListSubject"; $"WLBLEval"].
