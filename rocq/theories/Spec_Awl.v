(** Vocabulary for the properties of the auto-whitelist. *)
From Verif Require Import PyStr Model_Net Model_Awl.

(** One message: who it is from (for which user, the address, the signing domain),
    the network it came from ("none" if unknown) and its score before adjustment. *)
Record mail := mkMail { l_user : str; l_email : str; l_signed : str; l_ip : str; l_score : Q }.
Definition same_sender (a b : mail) : bool :=
  streqb (l_user a) (l_user b) && streqb (l_email a) (l_email b) && streqb (l_signed a) (l_signed b).
Definition nowhere : str := $"none".
Definition unknown (m : mail) : bool := streqb (l_ip m) nowhere.

(** The address that a message counts for, given the messages before and after it:
    its own; if that is unknown, that of the first later message of the same sender
    from an address that had not written before. *)
Definition home (before : list mail) (m : mail) (after : list mail) : str :=
  if unknown m then
    match find (fun n => same_sender m n && negb (unknown n) &&
                  negb (existsb (fun b => same_sender m b && streqb (l_ip b) (l_ip n)) before)) after with
    | Some n => l_ip n
    | None => nowhere
    end
  else l_ip m.

(** The messages of [h] that count for the sender of [k] at [ip]. *)
Fixpoint filed_after (before h : list mail) (k : mail) (ip : str) : list mail :=
  match h with
  | [] => []
  | m :: rest => (if same_sender k m && streqb (home before m rest) ip then [m] else []) ++ filed_after (before ++ [m]) rest k ip
  end.
Definition filed (h : list mail) (k : mail) (ip : str) : list mail := filed_after [] h k ip.

Definition total (l : list mail) : Q := fold_right (fun m s => (l_score m + s)%Q) 0%Q l.
Definition mean (l : list mail) : Q := (total l / inject_Z (Z.of_nat (length l)))%Q.

Definition mail_step (factor : Q) (t : table) (m : mail) : table :=
  fst (check (l_user m) (l_email m) (l_signed m) (l_ip m) factor t (l_score m)).
Definition mails (factor : Q) (h : list mail) : table := fold_left (mail_step factor) h [].
Definition record_of (k : mail) (ip : str) (t : table) : option row := first_row (l_user k) (l_email k) (l_signed k) ip t.

(** Two addresses are in the same network of the length configured for their
    version. *)
Definition same_network (mask4 mask6 : N) (a b : addr) : Prop :=
  a_ver a = a_ver b /\
  let len := match a_ver a with V4 => mask4 | V6 => mask6 end in
  (a_val a / 2 ^ (bits (a_ver a) - len) = a_val b / 2 ^ (bits (a_ver b) - len))%N.
Definition valid (a : addr) : Prop := (a_val a < 2 ^ bits (a_ver a))%N.

(** A signature whose parameters are [before], the domain with blanks around it, and [after] *)
Definition signature (before : list str) (blanks domain rest : str) (after : list str) : str :=
  join ($";") (before ++ [blanks ++ $"d=" ++ domain ++ rest] ++ after).
Definition blank (c : char) : Prop := In c [32; 13; 10]%N.
(** No other parameter before it begins with "d=", and no semicolon is inside of one. *)
Definition another_parameter (p : str) : Prop := ~ In 59%N p /\ startswith ($"d=") (strip p) = false.
Definition domain_name (d : str) : Prop := d <> [] /\ forall c, In c d -> is_space c = false /\ c <> 59%N.
