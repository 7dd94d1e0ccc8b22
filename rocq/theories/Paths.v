(** Model of where cmd/baron/main.go puts the service (lines 173-176 and 217-244), with what it uses of path/filepath
    and go/build on Unix: filepath.Clean, Join, Abs, Split, SplitList and build.IsLocalImport. *)
From Verif Require Import GoStr.

(** filepath.IsAbs *)
Definition is_abs (s : str) : bool := has_prefix s (T "/").
(** filepath.Clean, by its documented rules, on the elements between the slashes; [st] is what was kept so far, last first. *)
Fixpoint clean_elems (rooted : bool) (es st : list str) : list str :=
  match es with
  | [] => rev st
  | e :: es' =>
      if str_eqb e [] || str_eqb e (T ".") then clean_elems rooted es' st
      else if str_eqb e (T "..") then
        match st with
        | t :: st' => if str_eqb t (T "..") then clean_elems rooted es' (e :: st) else clean_elems rooted es' st'
        | [] => clean_elems rooted es' (if rooted then [] else [e])
        end
      else clean_elems rooted es' (e :: st)
  end.
Definition clean (s : str) : str :=
  let es := clean_elems (is_abs s) (split1 c_slash s) [] in
  if is_abs s then c_slash :: join [c_slash] es else match es with [] => T "." | _ => join [c_slash] es end.
(** filepath.Join: the elements from the first that is not empty on. *)
Fixpoint fp_join (l : list str) : str :=
  match l with
  | [] => []
  | [] :: l' => fp_join l'
  | _ => clean (join [c_slash] l)
  end.
(** filepath.Abs, in the directory [cwd]. *)
Definition fp_abs (cwd s : str) : str := if is_abs s then clean s else fp_join [cwd; s].
(** filepath.Split: the file part *)
Definition fp_file (s : str) : str := last (split1 c_slash s) [].
(** filepath.SplitList *)
Definition split_list (s : str) : list str := match s with [] => [] | _ => split1 c_colon s end.
(** go/build, IsLocalImport *)
Definition is_local_import (s : str) : bool :=
  str_eqb s (T ".") || str_eqb s (T "..") || has_prefix s (T "./") || has_prefix s (T "../").

(** cmd/baron/main.go:173-176: [gopath] is the variable, [dflt] is build.Default.GOPATH. *)
Definition go_path (gopath dflt : str) : list str := match split_list gopath with [] => split_list dflt | l => l end.
(** cmd/baron/main.go:280-285, parseSVCOut *)
Definition parse_svc_out (cwd svc_out gopath : str) : str :=
  if is_local_import svc_out then fp_abs cwd svc_out else fp_join [gopath; T "src"; svc_out].
(** cmd/baron/main.go:217-244, the service path; None: cfg.GoPath[0] of an empty list. *)
Definition service_path (cwd : str) (gopath : list str) (svc_out svc_name : str) : option str :=
  let dir := to_lower svc_name ++ T "-service" in
  match svc_out with
  | [] => Some (fp_join [T "."; dir])
  | _ => match gopath with
         | [] => None
         | g :: _ => let p := parse_svc_out cwd svc_out g in
                     Some (if str_eqb (fp_file svc_out) [] then fp_join [p; dir] else p)
         end
  end.
(** cmd/baron/main.go:154, the path of a generated file. *)
Definition file_path (service_path rel : str) : str := fp_join [service_path; rel].
