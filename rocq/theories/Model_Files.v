(** Model of oa/config.py (which files are read) and of the path of the user
    preferences.  Definitions only. *)
From Verif Require Import PyStr PyPath.

(** Python's order on strings: by code points.  For oa/config.py:104-120. *)
Fixpoint str_leb (a b : str) : bool :=
  match a, b with
  | [], _ => true
  | _ :: _, [] => false
  | x :: a', y :: b' => if N.ltb x y then true else if N.eqb x y then str_leb a' b' else false
  end.
(** [sorted(...)].  For oa/config.py:104-120. *)
Fixpoint insert_str (x : str) (l : list str) : list str :=
  match l with
  | [] => [x]
  | y :: r => if str_leb x y then x :: l else y :: insert_str x r
  end.
(** For oa/config.py:104-120. *)
Definition sorted (l : list str) : list str := fold_right insert_str [] l.

Section Files.
(** The file system and the environment: [os.listdir] ([None]: it raises),
    [os.path.exists] and [os.path.expanduser]. *)
Variable listdir : str -> option (list str).
Variable exists_ : str -> bool.
Variable expanduser : str -> str.

(** oa/config.py:97-101 *)
Definition files_with_extension (path extension : str) : option (list str) :=
  let path := expanduser path in
  option_map (fun names => map (path_join path) (filter (endswith extension) names)) (listdir path).

(** oa/config.py:104-120 *)
Definition get_config_files (config_path site_path : str) (userpref : option str) : option (list str) :=
  match files_with_extension site_path ($".pre") with
  | None => None
  | Some a =>
      let mid :=
        if streqb site_path config_path then Some []
        else match files_with_extension config_path ($".pre") with
             | None => None
             | Some b => option_map (fun c => sorted b ++ sorted c) (files_with_extension config_path ($".cf"))
             end in
      match mid with
      | None => None
      | Some m =>
          match files_with_extension site_path ($".cf") with
          | None => None
          | Some d =>
              let user := match userpref with
                          | None => []
                          | Some u => let u := expanduser u in if exists_ u then [u] else []
                          end in
              Some (sorted a ++ m ++ sorted d ++ user)
          end
      end
  end.

(** oa/config.py:74-94: the default directory and whether one is required. *)
Definition get_default_configs (paths : list str) : option str * bool :=
  match filter exists_ paths with
  | p :: _ => (Some p, false)
  | [] => (None, true)
  end.
End Files.

(** oa/config.py:123-125 *)
Definition get_userprefs_path (user : str) : str :=
  path_join (path_join (path_join ($"/home") user) ($".spamassassin")) ($"user_prefs").
