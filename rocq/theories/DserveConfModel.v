(** Reading the configuration file of dserve (Server/dserve_util.c l.657-802). A buffer is the list of
    its bytes; an access outside of it or to freed memory is [None]. *)
From Coq Require Import ZArith List Bool.
From Coq Require String Ascii.
From Verif Require Import DserveModel.
Import ListNotations.
Import String.StringSyntax.
Open Scope Z_scope.

(** The bytes of a text constant (Server/dserve.h l.278-289). *)
Definition bytes (s : String.string) : list Z :=
  map (fun c => Z.of_nat (Ascii.nat_of_ascii c)) (String.list_ascii_of_string s).
Arguments bytes _%string_scope.
(** The keys (Server/dserve.h l.278-289), in the order of the comparisons (Server/dserve_util.c l.762-773). *)
Definition conf_keys : list (list Z) :=
  [bytes "default_dbase"; bytes "default_dbase_size"; bytes "max_dbase_size"; bytes "dbases";
   bytes "admin_ips"; bytes "write_ips"; bytes "read_ips";
   bytes "admin_tokens"; bytes "write_tokens"; bytes "read_tokens"; bytes "key_file"; bytes "cert_file"].

(** Server/dserve.h l.111. *)
Definition CONF_BUF_SIZE : Z := 1000.
(** Server/dserve.h l.112. *)
Definition MAX_CONF_BUF_SIZE : Z := 10000000.
(** Server/dserve.h l.113. *)
Definition CONF_VALS_SIZE : Z := 2.
(** Server/dserve.h l.114. *)
Definition MAX_CONF_VALS_SIZE : Z := 1000000.

(** Result of reading the file (Server/dserve_util.c l.672-688): a return with an error, the
    size of the buffer that holds the file, or going on with a freed buffer. *)
Inductive loaded := L_ret (code : Z) | L_buf (size : Z) | L_freed.
(** Server/dserve_util.c l.672-688: [rounds] are left, [len] is the size of the file. *)
Fixpoint read_loop (rounds : nat) (bufsize len : Z) : loaded :=
  match rounds with
  | O => L_freed
  | S rounds =>
      if len <=? 0 then L_ret 3
      else if bufsize <=? len then
        (if MAX_CONF_BUF_SIZE <? bufsize * 2 then L_freed else read_loop rounds (bufsize * 2) len)
      else L_buf bufsize
  end.

(** A for loop over chars (Server/dserve_util.c l.699-700, l.704, l.716, l.719, l.727, l.729). *)
Fixpoint scan (fuel : nat) (p : Z -> bool) (b : list Z) (i bend : nat) : option nat :=
  match fuel with
  | O => None
  | S fuel =>
      if Nat.ltb i bend then
        match rd b i with
        | None => None
        | Some c => if p c then scan fuel p b (S i) bend else Some i
        end
      else Some i
  end.
(** Blank, tab or carriage return (Server/dserve_util.c l.699). *)
Definition ws (c : Z) : bool := (c =? 32) || (c =? 9) || (c =? 13).
(** Not a newline (Server/dserve_util.c l.700). *)
Definition notnl (c : Z) : bool := negb (c =? 10).
(** A char of a value (Server/dserve_util.c l.704, l.729). *)
Definition inval (c : Z) : bool := negb (c =? 10) && negb (c =? 35) && negb (ws c).

(** isspace of ctype.h (Server/dserve_util.c l.754). *)
Definition isspace (c : Z) : bool := (c =? 32) || ((9 <=? c) && (c <=? 13)).
(** Server/dserve_util.c l.751-758: empty_str of a string. *)
Definition empty_str (s : list Z) : bool := forallb isspace s.

(** struct sized_strlst, [used] is the length of the list (Server/dserve.h l.352-356). *)
Record sl := Sl { sl_size : Z; sl_vals : list nat }.
(** Server/dserve_util.c l.777-802: add_slval; [None] is -1. *)
Definition add_slval (alloc : Z -> bool) (l : sl) (val : nat) : option sl :=
  if Z.of_nat (length (sl_vals l)) <? sl_size l then Some (Sl (sl_size l) (sl_vals l ++ [val]))
  else if sl_size l =? 0 then
    (if alloc CONF_VALS_SIZE then Some (Sl CONF_VALS_SIZE [val]) else None)
  else
    let size := sl_size l * 2 in
    if MAX_CONF_VALS_SIZE <? size then None
    else if alloc size then Some (Sl size (sl_vals l ++ [val]))
    else None.

(** The lists in the order of the keys (Server/dserve.h l.360-373). *)
Definition lists := list sl.
(** Server/dserve_util.c l.762-774: the list of the key gets the value; [None] is -1. *)
Fixpoint add_to (alloc : Z -> bool) (keys : list (list Z)) (ls : lists) (key : list Z) (val : nat) : option lists :=
  match keys, ls with
  | k :: keys, l :: ls =>
      if streq key k then match add_slval alloc l val with Some l => Some (l :: ls) | None => None end
      else match add_to alloc keys ls key val with Some ls => Some (l :: ls) | None => None end
  | _, _ => None
  end.
(** How a configuration ends: the lists with the buffer, or exit (Server/dserve_util.c l.710, l.734). *)
Inductive cres := C_ok (b : list Z) (ls : lists) | C_exit.
(** Server/dserve_util.c l.760-775: add_conf_key_val. The outer [None] is undefined, the inner one -1. *)
Definition add_conf_key_val (alloc : Z -> bool) (b : list Z) (ls : lists) (key val : nat) : option (option lists) :=
  match cstr_at b val with
  | None => None
  | Some v =>
      if empty_str v then Some (Some ls)
      else match cstr_at b key with
           | None => None
           | Some k => Some (add_to alloc conf_keys ls k val)
           end
  end.

(** Server/dserve_util.c l.705-706 (l.730-731): end of the value at [bp3]; a 0 is put there, and the rest of
    the row is passed. *)
Definition end_value (b : list Z) (bp3 bend : nat) : option (list Z * nat) :=
  match rd b bp3 with
  | None => None
  | Some c =>
      match wr b bp3 0 with
      | None => None
      | Some b =>
          if c =? 10 then Some (b, S bp3)
          else match scan (S bend) notnl b bp3 bend with Some bp => Some (b, bp) | None => None end
      end
  end.
(** Server/dserve_util.c l.723: white space before = is set to 0, down from [S bp3] - 1. *)
Fixpoint trim (b : list Z) (bp : nat) (n : nat) : option (list Z) :=
  match n with
  | O => Some b
  | S m =>
      if Nat.ltb bp m then
        match rd b m with
        | None => None
        | Some c => if ws c then match wr b m 0 with Some b => trim b bp m | None => None end else Some b
        end
      else Some b
  end.

(** Result of one row: the buffer, where to go on, the key and the lists; or exit (Server/dserve_util.c l.695-743). *)
Inductive rowres := Row (b : list Z) (bp : nat) (key : option nat) (ls : lists) | Row_exit.
(** Server/dserve_util.c l.696-743: one row that starts at [bp] < [bend]. *)
Definition row (alloc : Z -> bool) (b : list Z) (bp bend : nat) (key : option nat) (ls : lists) : option rowres :=
  match rd b bp with
  | None => None
  | Some c =>
      if (c =? 32) || (c =? 9) then
        match scan (S bend) ws b bp bend with
        | None => None
        | Some bp2 =>
            match rd b bp2 with
            | None => None
            | Some c2 =>
                if c2 =? 35 then
                  match scan (S bend) notnl b bp2 bend with Some bp => Some (Row b bp key ls) | None => None end
                else if c2 =? 10 then Some (Row b bp2 key ls)
                else
                  match scan (S bend) inval b (S bp2) bend with
                  | None => None
                  | Some bp3 =>
                      match end_value b bp3 bend with
                      | None => None
                      | Some (b, bp) =>
                          match key with
                          | None => Some (Row b bp key ls)
                          | Some k =>
                              match cstr_at b k with
                              | None => None
                              | Some ks =>
                                  if empty_str ks then Some (Row b bp key ls)
                                  else
                                    match add_conf_key_val alloc b ls k bp2 with
                                    | None => None
                                    | Some None => Some Row_exit
                                    | Some (Some ls) => Some (Row b bp key ls)
                                    end
                              end
                          end
                      end
                  end
            end
        end
      else if c =? 91 then
        match scan (S bend) notnl b bp bend with Some bp => Some (Row b bp key ls) | None => None end
      else if negb (c =? 35) then
        match scan (S bend) (fun c => notnl c && negb (c =? 61)) b bp bend with
        | None => None
        | Some bp2 =>
            match rd b bp2 with
            | None => None
            | Some c2 =>
                if c2 =? 61 then
                  match wr b bp2 0 with
                  | None => None
                  | Some b =>
                      match trim b bp bp2 with
                      | None => None
                      | Some b =>
                          match scan (S bend) ws b (S bp2) bend with
                          | None => None
                          | Some bv =>
                              match scan (S bend) inval b bv bend with
                              | None => None
                              | Some bp3 =>
                                  match end_value b bp3 bend with
                                  | None => None
                                  | Some (b, bp') =>
                                      match add_conf_key_val alloc b ls bp bv with
                                      | None => None
                                      | Some None => Some Row_exit
                                      | Some (Some ls) => Some (Row b bp' (Some bp) ls)
                                      end
                                  end
                              end
                          end
                      end
                  end
                else Some (Row b bp2 key ls)
            end
        end
      else
        match scan (S bend) notnl b bp bend with Some bp => Some (Row b bp key ls) | None => None end
  end.
(** Server/dserve_util.c l.693-747: all rows; after each one newlines and carriage returns are passed. *)
Fixpoint rows (fuel : nat) (alloc : Z -> bool) (b : list Z) (bp bend : nat) (key : option nat) (ls : lists) : option cres :=
  match fuel with
  | O => None
  | S fuel =>
      if Nat.leb bend bp then Some (C_ok b ls)
      else
        match row alloc b bp bend key ls with
        | None => None
        | Some Row_exit => Some C_exit
        | Some (Row b bp key ls) =>
            match scan (S bend) (fun c => (c =? 13) || (c =? 10)) b bp bend with
            | None => None
            | Some bp => rows fuel alloc b bp bend key ls
            end
        end
  end.
(** Server/dserve_util.c l.657-749: load_configuration of a file with bytes [f] into the lists [ls]; [junk] is what
    malloc leaves in a buffer of that size behind the bytes read. The outer [None] is undefined. *)
Definition load_configuration (alloc : Z -> bool) (junk : Z -> list Z) (f : list Z) (ls : lists) : option (Z + cres) :=
  match read_loop 10 CONF_BUF_SIZE (Z.of_nat (length f)) with
  | L_ret n => Some (inl n)
  | L_freed => None
  | L_buf size =>
      match rows (S (length f)) alloc (f ++ firstn (Z.to_nat (size - Z.of_nat (length f))) (junk size)) 0 (length f) None ls with
      | Some r => Some (inr r)
      | None => None
      end
  end.
(** Server/dserve.c l.375, l.382-401: size and used of the lists after setup_globals, in the order of the keys;
    [junk] is what malloc leaves there. used of max_dbase_size and both fields of key_file and cert_file are not set. *)
Definition setup_globals (junk : list (Z * Z)) : list (Z * Z) :=
  let u := fun i => nth i junk (0, 0) in
  [(0, 0); (0, 0); (0, snd (u 2%nat)); (0, 0); (0, 0); (0, 0); (0, 0); (0, 0); (0, 0); (0, 0); u 10%nat; u 11%nat].
(** The lists at the start, when what malloc leaves in the fields not set is zero (Server/dserve.c l.382-401). *)
Definition empty_lists : lists := repeat (Sl 0 []) 12.
(** The values in a list as text (Server/dserve_util.c l.822-824). *)
Definition values (b : list Z) (l : sl) : list (option (list Z)) := map (cstr_at b) (sl_vals l).
