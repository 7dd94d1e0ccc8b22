(** The parts of Go's net/url that generated clients and servers use.  In this file a text is the list
    of the bytes of a Go string. *)
From Verif Require Import GoStr GoStrProofs GoMap.

(** net/url shouldEscape for encodeQueryComponent: all but letters, digits and -_.~ *)
Definition unreserved (c : N) : bool :=
  is_alnum c || N.eqb c c_dash || N.eqb c c_underscore || N.eqb c c_dot || N.eqb c 126.
(** "0123456789ABCDEF"[n] *)
Definition hex_digit (n : N) : N := if (n <? 10)%N then (48 + n)%N else (55 + n)%N.
(** url.QueryEscape *)
Definition query_escape (s : str) : str :=
  flat_map (fun c => if N.eqb c c_space then [43%N]
                     else if unreserved c then [c]
                     else [37%N; hex_digit (c / 16); hex_digit (c mod 16)]) s.

(** ishex / unhex *)
Definition unhex (c : N) : option N :=
  if is_digit c then Some (c - 48)%N
  else if in_range 97 102 c then Some (c - 87)%N
  else if in_range 65 70 c then Some (c - 55)%N
  else None.
(** net/url unescape; [plus]: in a query component '+' means a space.  None is the EscapeError. *)
Fixpoint unescape (plus : bool) (s : str) : option str :=
  match s with
  | [] => Some []
  | c :: s' =>
      if N.eqb c 37 then
        match s' with
        | a :: s1 =>
            match s1 with
            | b :: s2 =>
                match unhex a, unhex b with
                | Some x, Some y => match unescape plus s2 with Some r => Some ((16 * x + y)%N :: r) | None => None end
                | _, _ => None
                end
            | [] => None
            end
        | [] => None
        end
      else match unescape plus s' with
           | Some r => Some ((if plus && N.eqb c 43 then c_space else c) :: r)
           | None => None
           end
  end.

(** url.Values *)
Definition values := gomap (list str).
(** Values.Add *)
Definition v_add (m : values) (k v : str) : values :=
  mset m k (match mget m k with Some l => l | None => [] end ++ [v]).

(** sort.Strings on the keys: insertion sort by byte order. *)
Fixpoint str_ltb (a b : str) : bool :=
  match a, b with
  | _, [] => false
  | [], _ :: _ => true
  | x :: a', y :: b' => (x <? y)%N || (N.eqb x y && str_ltb a' b')
  end.
Fixpoint insert_key {A} (p : str * A) (m : gomap A) : gomap A :=
  match m with
  | [] => [p]
  | q :: m' => if str_ltb (fst q) (fst p) then q :: insert_key p m' else p :: m
  end.
Definition sort_keys {A} (m : gomap A) : gomap A := fold_right insert_key [] m.
(** Values.Encode *)
Definition encode_pairs (m : values) : list str :=
  flat_map (fun p => map (fun v => query_escape (fst p) ++ 61%N :: query_escape v) (snd p)) m.
Definition encode_values (m : values) : str := join [38%N] (encode_pairs (sort_keys m)).

(** strings.Cut(s, "=") *)
Fixpoint cut_at (c : N) (s : str) : str * str :=
  match s with
  | [] => ([], [])
  | x :: s' => if N.eqb x c then ([], s') else let (a, b) := cut_at c s' in (x :: a, b)
  end.
(** url.ParseQuery as URL.Query uses it (errors skip the pair; a ';' in a pair is an error since
    Go 1.17). *)
Definition parse_pair (m : values) (kv : str) : values :=
  if contains1 kv c_semi then m
  else match kv with
       | [] => m
       | _ => let (k, v) := cut_at 61 kv in
              match unescape true k, unescape true v with
              | Some k', Some v' => v_add m k' v'
              | _, _ => m
              end
       end.
Definition parse_query (s : str) : values := fold_left parse_pair (split1 38 s) [].

(** url.Parse for a path that starts with '/': control bytes and bad escapes are errors (None); the
    fragment and the query are cut off; after '//' the next part is the host, not the path.  (That a
    host has to be well-formed is not modelled; a text without '/' in front is not modelled: None.) *)
Definition url_parse_path (s : str) : option str :=
  if existsb (fun c => (c <? 32)%N || N.eqb c 127) s then None
  else
    let (u, frag) := cut_at 35 s in
    match unescape false frag with
    | None => None
    | Some _ =>
        let (rest, _) := cut_at 63 u in
        match rest with
        | 47%N :: _ =>
            let path := if has_prefix rest (T "//") && negb (has_prefix rest (T "///"))
                        then match snd (cut_at c_slash (skipn 2 rest)), contains1 (skipn 2 rest) c_slash with
                             | p, true => c_slash :: p
                             | _, false => []
                             end
                        else rest in
            unescape false path
        | _ => None
        end
    end.
