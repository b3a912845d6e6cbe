(** Generated by gen/gen_conv.py from src/conversion*.c; do not edit. *)
From Coq Require Import List.
Import ListNotations.
(** One pass over the rows packed -> sliced. [sp_set]: the bulk loop assigns (=) instead of (|=).
    [sp_clear]: the last word is first cleared with &= ~bitmask_end.
    [sp_bulk]: for each target slice t the terms (k, a, b) of  t_t[j2] (|)= OR_k word_slice(f[j+k] << a & topmask) >> b.
    [sp_rest]: entry n-1 holds what the switch label n contributes (with fallthrough to the smaller labels):
    (t, (k, a, b)) for r_t |= word_slice(f[j+k] << a & topmask) >> b. *)
Record spass := SPass { sp_set : bool; sp_clear : bool; sp_bulk : list (nat * list (nat * nat * nat)); sp_rest : list (list (nat * (nat * nat * nat))) }.
(** One pass over the rows sliced -> packed. [cp_bulk]: entry (k, terms (t, a, b)) for
    t[j+k] (|)= OR_t word_cling(f_t[j2] << a) >> b; [cp_rest]: entry n-1 is what label n of the switch assigns. *)
Record cpass := CPass { cp_set : bool; cp_bulk : list (nat * list (nat * nat * nat)); cp_rest : list (nat * list (nat * nat * nat)) }.
(** conversion.c:131-179 [_mzed_slice2] *)
Definition slice2_d2 : spass := SPass true true
  [(0, [(0, 1, 32); (1, 1, 0)]); (1, [(0, 0, 32); (1, 0, 0)])]
  [[(0, (0, 1, 32)); (1, (0, 0, 32))]; [(0, (1, 1, 0)); (1, (1, 0, 0))]].
(** conversion.c:190-212 [_mzed_cling2] *)
Definition cling2_d2 : cpass := CPass true
  [(0, [(0, 32, 1); (1, 32, 0)]); (1, [(0, 0, 1); (1, 0, 0)])]
  [(0, [(0, 32, 1); (1, 32, 0)]); (1, [(0, 0, 1); (1, 0, 0)])].
(** conversion.c:225-266 [_mzed_slice4], depth 3 *)
Definition slice4_d3 : spass := SPass true false
  [(0, [(0, 3, 48); (1, 3, 32); (2, 3, 16); (3, 3, 0)]); (1, [(0, 2, 48); (1, 2, 32); (2, 2, 16); (3, 2, 0)]); (2, [(0, 1, 48); (1, 1, 32); (2, 1, 16); (3, 1, 0)])]
  [[(0, (0, 3, 48)); (1, (0, 2, 48)); (2, (0, 1, 48))]; [(0, (1, 3, 32)); (1, (1, 2, 32)); (2, (1, 1, 32))]; [(0, (2, 3, 16)); (1, (2, 2, 16)); (2, (2, 1, 16))]; [(0, (3, 3, 0)); (1, (3, 2, 0)); (2, (3, 1, 0))]].
(** conversion.c:267-318 [_mzed_slice4], depth 4 *)
Definition slice4_d4 : spass := SPass true false
  [(0, [(0, 3, 48); (1, 3, 32); (2, 3, 16); (3, 3, 0)]); (1, [(0, 2, 48); (1, 2, 32); (2, 2, 16); (3, 2, 0)]); (2, [(0, 1, 48); (1, 1, 32); (2, 1, 16); (3, 1, 0)]); (3, [(0, 0, 48); (1, 0, 32); (2, 0, 16); (3, 0, 0)])]
  [[(0, (0, 3, 48)); (1, (0, 2, 48)); (2, (0, 1, 48)); (3, (0, 0, 48))]; [(0, (1, 3, 32)); (1, (1, 2, 32)); (2, (1, 1, 32)); (3, (1, 0, 32))]; [(0, (2, 3, 16)); (1, (2, 2, 16)); (2, (2, 1, 16)); (3, (2, 0, 16))]; [(0, (3, 3, 0)); (1, (3, 2, 0)); (2, (3, 1, 0)); (3, (3, 0, 0))]].
(** conversion.c:329-371 [_mzed_cling4], degree 4 *)
Definition cling4_d4 : cpass := CPass true
  [(0, [(0, 48, 3); (1, 48, 2); (2, 48, 1); (3, 48, 0)]); (1, [(0, 32, 3); (1, 32, 2); (2, 32, 1); (3, 32, 0)]); (2, [(0, 16, 3); (1, 16, 2); (2, 16, 1); (3, 16, 0)]); (3, [(0, 0, 3); (1, 0, 2); (2, 0, 1); (3, 0, 0)])]
  [(0, [(0, 48, 3); (1, 48, 2); (2, 48, 1); (3, 48, 0)]); (1, [(0, 32, 3); (1, 32, 2); (2, 32, 1); (3, 32, 0)]); (2, [(0, 16, 3); (1, 16, 2); (2, 16, 1); (3, 16, 0)]); (3, [(0, 0, 3); (1, 0, 2); (2, 0, 1); (3, 0, 0)])].
(** conversion.c:372-415 [_mzed_cling4], degree 3 *)
Definition cling4_d3 : cpass := CPass true
  [(0, [(0, 48, 3); (1, 48, 2); (2, 48, 1)]); (1, [(0, 32, 3); (1, 32, 2); (2, 32, 1)]); (2, [(0, 16, 3); (1, 16, 2); (2, 16, 1)]); (3, [(0, 0, 3); (1, 0, 2); (2, 0, 1)])]
  [(0, [(0, 48, 3); (1, 48, 2); (2, 48, 1)]); (1, [(0, 32, 3); (1, 32, 2); (2, 32, 1)]); (2, [(0, 16, 3); (1, 16, 2); (2, 16, 1)]); (3, [(0, 0, 3); (1, 0, 2); (2, 0, 1)])].
(** conversion_slice8.c:41-184 [_mzed_slice8], depth 8 *)
Definition slice8_d8 : spass := SPass false false
  [(0, [(0, 7, 56); (1, 7, 48); (2, 7, 40); (3, 7, 32); (4, 7, 24); (5, 7, 16); (6, 7, 8); (7, 7, 0)]); (1, [(0, 6, 56); (1, 6, 48); (2, 6, 40); (3, 6, 32); (4, 6, 24); (5, 6, 16); (6, 6, 8); (7, 6, 0)]); (2, [(0, 5, 56); (1, 5, 48); (2, 5, 40); (3, 5, 32); (4, 5, 24); (5, 5, 16); (6, 5, 8); (7, 5, 0)]); (3, [(0, 4, 56); (1, 4, 48); (2, 4, 40); (3, 4, 32); (4, 4, 24); (5, 4, 16); (6, 4, 8); (7, 4, 0)]); (4, [(0, 3, 56); (1, 3, 48); (2, 3, 40); (3, 3, 32); (4, 3, 24); (5, 3, 16); (6, 3, 8); (7, 3, 0)]); (5, [(0, 2, 56); (1, 2, 48); (2, 2, 40); (3, 2, 32); (4, 2, 24); (5, 2, 16); (6, 2, 8); (7, 2, 0)]); (6, [(0, 1, 56); (1, 1, 48); (2, 1, 40); (3, 1, 32); (4, 1, 24); (5, 1, 16); (6, 1, 8); (7, 1, 0)]); (7, [(0, 0, 56); (1, 0, 48); (2, 0, 40); (3, 0, 32); (4, 0, 24); (5, 0, 16); (6, 0, 8); (7, 0, 0)])]
  [[(0, (0, 7, 56)); (1, (0, 6, 56)); (2, (0, 5, 56)); (3, (0, 4, 56)); (4, (0, 3, 56)); (5, (0, 2, 56)); (6, (0, 1, 56)); (7, (0, 0, 56))]; [(0, (1, 7, 48)); (1, (1, 6, 48)); (2, (1, 5, 48)); (3, (1, 4, 48)); (4, (1, 3, 48)); (5, (1, 2, 48)); (6, (1, 1, 48)); (7, (1, 0, 48))]; [(0, (2, 7, 40)); (1, (2, 6, 40)); (2, (2, 5, 40)); (3, (2, 4, 40)); (4, (2, 3, 40)); (5, (2, 2, 40)); (6, (2, 1, 40)); (7, (2, 0, 40))]; [(0, (3, 7, 32)); (1, (3, 6, 32)); (2, (3, 5, 32)); (3, (3, 4, 32)); (4, (3, 3, 32)); (5, (3, 2, 32)); (6, (3, 1, 32)); (7, (3, 0, 32))]; [(0, (4, 7, 24)); (1, (4, 6, 24)); (2, (4, 5, 24)); (3, (4, 4, 24)); (4, (4, 3, 24)); (5, (4, 2, 24)); (6, (4, 1, 24)); (7, (4, 0, 24))]; [(0, (5, 7, 16)); (1, (5, 6, 16)); (2, (5, 5, 16)); (3, (5, 4, 16)); (4, (5, 3, 16)); (5, (5, 2, 16)); (6, (5, 1, 16)); (7, (5, 0, 16))]; [(0, (6, 7, 8)); (1, (6, 6, 8)); (2, (6, 5, 8)); (3, (6, 4, 8)); (4, (6, 3, 8)); (5, (6, 2, 8)); (6, (6, 1, 8)); (7, (6, 0, 8))]; [(0, (7, 7, 0)); (1, (7, 6, 0)); (2, (7, 5, 0)); (3, (7, 4, 0)); (4, (7, 3, 0)); (5, (7, 2, 0)); (6, (7, 1, 0)); (7, (7, 0, 0))]].
(** conversion_slice8.c:185-313 [_mzed_slice8], depth 7 *)
Definition slice8_d7 : spass := SPass false false
  [(0, [(0, 7, 56); (1, 7, 48); (2, 7, 40); (3, 7, 32); (4, 7, 24); (5, 7, 16); (6, 7, 8); (7, 7, 0)]); (1, [(0, 6, 56); (1, 6, 48); (2, 6, 40); (3, 6, 32); (4, 6, 24); (5, 6, 16); (6, 6, 8); (7, 6, 0)]); (2, [(0, 5, 56); (1, 5, 48); (2, 5, 40); (3, 5, 32); (4, 5, 24); (5, 5, 16); (6, 5, 8); (7, 5, 0)]); (3, [(0, 4, 56); (1, 4, 48); (2, 4, 40); (3, 4, 32); (4, 4, 24); (5, 4, 16); (6, 4, 8); (7, 4, 0)]); (4, [(0, 3, 56); (1, 3, 48); (2, 3, 40); (3, 3, 32); (4, 3, 24); (5, 3, 16); (6, 3, 8); (7, 3, 0)]); (5, [(0, 2, 56); (1, 2, 48); (2, 2, 40); (3, 2, 32); (4, 2, 24); (5, 2, 16); (6, 2, 8); (7, 2, 0)]); (6, [(0, 1, 56); (1, 1, 48); (2, 1, 40); (3, 1, 32); (4, 1, 24); (5, 1, 16); (6, 1, 8); (7, 1, 0)])]
  [[(0, (0, 7, 56)); (1, (0, 6, 56)); (2, (0, 5, 56)); (3, (0, 4, 56)); (4, (0, 3, 56)); (5, (0, 2, 56)); (6, (0, 1, 56))]; [(0, (1, 7, 48)); (1, (1, 6, 48)); (2, (1, 5, 48)); (3, (1, 4, 48)); (4, (1, 3, 48)); (5, (1, 2, 48)); (6, (1, 1, 48))]; [(0, (2, 7, 40)); (1, (2, 6, 40)); (2, (2, 5, 40)); (3, (2, 4, 40)); (4, (2, 3, 40)); (5, (2, 2, 40)); (6, (2, 1, 40))]; [(0, (3, 7, 32)); (1, (3, 6, 32)); (2, (3, 5, 32)); (3, (3, 4, 32)); (4, (3, 3, 32)); (5, (3, 2, 32)); (6, (3, 1, 32))]; [(0, (4, 7, 24)); (1, (4, 6, 24)); (2, (4, 5, 24)); (3, (4, 4, 24)); (4, (4, 3, 24)); (5, (4, 2, 24)); (6, (4, 1, 24))]; [(0, (5, 7, 16)); (1, (5, 6, 16)); (2, (5, 5, 16)); (3, (5, 4, 16)); (4, (5, 3, 16)); (5, (5, 2, 16)); (6, (5, 1, 16))]; [(0, (6, 7, 8)); (1, (6, 6, 8)); (2, (6, 5, 8)); (3, (6, 4, 8)); (4, (6, 3, 8)); (5, (6, 2, 8)); (6, (6, 1, 8))]; [(0, (7, 7, 0)); (1, (7, 6, 0)); (2, (7, 5, 0)); (3, (7, 4, 0)); (4, (7, 3, 0)); (5, (7, 2, 0)); (6, (7, 1, 0))]].
(** conversion_slice8.c:314-427 [_mzed_slice8], depth 6 *)
Definition slice8_d6 : spass := SPass false false
  [(0, [(0, 7, 56); (1, 7, 48); (2, 7, 40); (3, 7, 32); (4, 7, 24); (5, 7, 16); (6, 7, 8); (7, 7, 0)]); (1, [(0, 6, 56); (1, 6, 48); (2, 6, 40); (3, 6, 32); (4, 6, 24); (5, 6, 16); (6, 6, 8); (7, 6, 0)]); (2, [(0, 5, 56); (1, 5, 48); (2, 5, 40); (3, 5, 32); (4, 5, 24); (5, 5, 16); (6, 5, 8); (7, 5, 0)]); (3, [(0, 4, 56); (1, 4, 48); (2, 4, 40); (3, 4, 32); (4, 4, 24); (5, 4, 16); (6, 4, 8); (7, 4, 0)]); (4, [(0, 3, 56); (1, 3, 48); (2, 3, 40); (3, 3, 32); (4, 3, 24); (5, 3, 16); (6, 3, 8); (7, 3, 0)]); (5, [(0, 2, 56); (1, 2, 48); (2, 2, 40); (3, 2, 32); (4, 2, 24); (5, 2, 16); (6, 2, 8); (7, 2, 0)])]
  [[(0, (0, 7, 56)); (1, (0, 6, 56)); (2, (0, 5, 56)); (3, (0, 4, 56)); (4, (0, 3, 56)); (5, (0, 2, 56))]; [(0, (1, 7, 48)); (1, (1, 6, 48)); (2, (1, 5, 48)); (3, (1, 4, 48)); (4, (1, 3, 48)); (5, (1, 2, 48))]; [(0, (2, 7, 40)); (1, (2, 6, 40)); (2, (2, 5, 40)); (3, (2, 4, 40)); (4, (2, 3, 40)); (5, (2, 2, 40))]; [(0, (3, 7, 32)); (1, (3, 6, 32)); (2, (3, 5, 32)); (3, (3, 4, 32)); (4, (3, 3, 32)); (5, (3, 2, 32))]; [(0, (4, 7, 24)); (1, (4, 6, 24)); (2, (4, 5, 24)); (3, (4, 4, 24)); (4, (4, 3, 24)); (5, (4, 2, 24))]; [(0, (5, 7, 16)); (1, (5, 6, 16)); (2, (5, 5, 16)); (3, (5, 4, 16)); (4, (5, 3, 16)); (5, (5, 2, 16))]; [(0, (6, 7, 8)); (1, (6, 6, 8)); (2, (6, 5, 8)); (3, (6, 4, 8)); (4, (6, 3, 8)); (5, (6, 2, 8))]; [(0, (7, 7, 0)); (1, (7, 6, 0)); (2, (7, 5, 0)); (3, (7, 4, 0)); (4, (7, 3, 0)); (5, (7, 2, 0))]].
(** conversion_slice8.c:428-530 [_mzed_slice8], depth 5 *)
Definition slice8_d5 : spass := SPass false false
  [(0, [(0, 7, 56); (1, 7, 48); (2, 7, 40); (3, 7, 32); (4, 7, 24); (5, 7, 16); (6, 7, 8); (7, 7, 0)]); (1, [(0, 6, 56); (1, 6, 48); (2, 6, 40); (3, 6, 32); (4, 6, 24); (5, 6, 16); (6, 6, 8); (7, 6, 0)]); (2, [(0, 5, 56); (1, 5, 48); (2, 5, 40); (3, 5, 32); (4, 5, 24); (5, 5, 16); (6, 5, 8); (7, 5, 0)]); (3, [(0, 4, 56); (1, 4, 48); (2, 4, 40); (3, 4, 32); (4, 4, 24); (5, 4, 16); (6, 4, 8); (7, 4, 0)]); (4, [(0, 3, 56); (1, 3, 48); (2, 3, 40); (3, 3, 32); (4, 3, 24); (5, 3, 16); (6, 3, 8); (7, 3, 0)])]
  [[(0, (0, 7, 56)); (1, (0, 6, 56)); (2, (0, 5, 56)); (3, (0, 4, 56)); (4, (0, 3, 56))]; [(0, (1, 7, 48)); (1, (1, 6, 48)); (2, (1, 5, 48)); (3, (1, 4, 48)); (4, (1, 3, 48))]; [(0, (2, 7, 40)); (1, (2, 6, 40)); (2, (2, 5, 40)); (3, (2, 4, 40)); (4, (2, 3, 40))]; [(0, (3, 7, 32)); (1, (3, 6, 32)); (2, (3, 5, 32)); (3, (3, 4, 32)); (4, (3, 3, 32))]; [(0, (4, 7, 24)); (1, (4, 6, 24)); (2, (4, 5, 24)); (3, (4, 4, 24)); (4, (4, 3, 24))]; [(0, (5, 7, 16)); (1, (5, 6, 16)); (2, (5, 5, 16)); (3, (5, 4, 16)); (4, (5, 3, 16))]; [(0, (6, 7, 8)); (1, (6, 6, 8)); (2, (6, 5, 8)); (3, (6, 4, 8)); (4, (6, 3, 8))]; [(0, (7, 7, 0)); (1, (7, 6, 0)); (2, (7, 5, 0)); (3, (7, 4, 0)); (4, (7, 3, 0))]].
(** conversion_cling8.c:39-104 [_mzed_cling8], degree 8 *)
Definition cling8_d8 : cpass := CPass true
  [(0, [(0, 56, 7); (1, 56, 6); (2, 56, 5); (3, 56, 4); (4, 56, 3); (5, 56, 2); (6, 56, 1); (7, 56, 0)]); (1, [(0, 48, 7); (1, 48, 6); (2, 48, 5); (3, 48, 4); (4, 48, 3); (5, 48, 2); (6, 48, 1); (7, 48, 0)]); (2, [(0, 40, 7); (1, 40, 6); (2, 40, 5); (3, 40, 4); (4, 40, 3); (5, 40, 2); (6, 40, 1); (7, 40, 0)]); (3, [(0, 32, 7); (1, 32, 6); (2, 32, 5); (3, 32, 4); (4, 32, 3); (5, 32, 2); (6, 32, 1); (7, 32, 0)]); (4, [(0, 24, 7); (1, 24, 6); (2, 24, 5); (3, 24, 4); (4, 24, 3); (5, 24, 2); (6, 24, 1); (7, 24, 0)]); (5, [(0, 16, 7); (1, 16, 6); (2, 16, 5); (3, 16, 4); (4, 16, 3); (5, 16, 2); (6, 16, 1); (7, 16, 0)]); (6, [(0, 8, 7); (1, 8, 6); (2, 8, 5); (3, 8, 4); (4, 8, 3); (5, 8, 2); (6, 8, 1); (7, 8, 0)]); (7, [(0, 0, 7); (1, 0, 6); (2, 0, 5); (3, 0, 4); (4, 0, 3); (5, 0, 2); (6, 0, 1); (7, 0, 0)])]
  [(0, [(0, 56, 7); (1, 56, 6); (2, 56, 5); (3, 56, 4); (4, 56, 3); (5, 56, 2); (6, 56, 1); (7, 56, 0)]); (1, [(0, 48, 7); (1, 48, 6); (2, 48, 5); (3, 48, 4); (4, 48, 3); (5, 48, 2); (6, 48, 1); (7, 48, 0)]); (2, [(0, 40, 7); (1, 40, 6); (2, 40, 5); (3, 40, 4); (4, 40, 3); (5, 40, 2); (6, 40, 1); (7, 40, 0)]); (3, [(0, 32, 7); (1, 32, 6); (2, 32, 5); (3, 32, 4); (4, 32, 3); (5, 32, 2); (6, 32, 1); (7, 32, 0)]); (4, [(0, 24, 7); (1, 24, 6); (2, 24, 5); (3, 24, 4); (4, 24, 3); (5, 24, 2); (6, 24, 1); (7, 24, 0)]); (5, [(0, 16, 7); (1, 16, 6); (2, 16, 5); (3, 16, 4); (4, 16, 3); (5, 16, 2); (6, 16, 1); (7, 16, 0)]); (6, [(0, 8, 7); (1, 8, 6); (2, 8, 5); (3, 8, 4); (4, 8, 3); (5, 8, 2); (6, 8, 1); (7, 8, 0)]); (7, [(0, 0, 7); (1, 0, 6); (2, 0, 5); (3, 0, 4); (4, 0, 3); (5, 0, 2); (6, 0, 1); (7, 0, 0)])].
(** conversion_cling8.c:105-169 [_mzed_cling8], degree 7 *)
Definition cling8_d7 : cpass := CPass true
  [(0, [(0, 56, 7); (1, 56, 6); (2, 56, 5); (3, 56, 4); (4, 56, 3); (5, 56, 2); (6, 56, 1)]); (1, [(0, 48, 7); (1, 48, 6); (2, 48, 5); (3, 48, 4); (4, 48, 3); (5, 48, 2); (6, 48, 1)]); (2, [(0, 40, 7); (1, 40, 6); (2, 40, 5); (3, 40, 4); (4, 40, 3); (5, 40, 2); (6, 40, 1)]); (3, [(0, 32, 7); (1, 32, 6); (2, 32, 5); (3, 32, 4); (4, 32, 3); (5, 32, 2); (6, 32, 1)]); (4, [(0, 24, 7); (1, 24, 6); (2, 24, 5); (3, 24, 4); (4, 24, 3); (5, 24, 2); (6, 24, 1)]); (5, [(0, 16, 7); (1, 16, 6); (2, 16, 5); (3, 16, 4); (4, 16, 3); (5, 16, 2); (6, 16, 1)]); (6, [(0, 8, 7); (1, 8, 6); (2, 8, 5); (3, 8, 4); (4, 8, 3); (5, 8, 2); (6, 8, 1)]); (7, [(0, 0, 7); (1, 0, 6); (2, 0, 5); (3, 0, 4); (4, 0, 3); (5, 0, 2); (6, 0, 1)])]
  [(0, [(0, 56, 7); (1, 56, 6); (2, 56, 5); (3, 56, 4); (4, 56, 3); (5, 56, 2); (6, 56, 1)]); (1, [(0, 48, 7); (1, 48, 6); (2, 48, 5); (3, 48, 4); (4, 48, 3); (5, 48, 2); (6, 48, 1)]); (2, [(0, 40, 7); (1, 40, 6); (2, 40, 5); (3, 40, 4); (4, 40, 3); (5, 40, 2); (6, 40, 1)]); (3, [(0, 32, 7); (1, 32, 6); (2, 32, 5); (3, 32, 4); (4, 32, 3); (5, 32, 2); (6, 32, 1)]); (4, [(0, 24, 7); (1, 24, 6); (2, 24, 5); (3, 24, 4); (4, 24, 3); (5, 24, 2); (6, 24, 1)]); (5, [(0, 16, 7); (1, 16, 6); (2, 16, 5); (3, 16, 4); (4, 16, 3); (5, 16, 2); (6, 16, 1)]); (6, [(0, 8, 7); (1, 8, 6); (2, 8, 5); (3, 8, 4); (4, 8, 3); (5, 8, 2); (6, 8, 1)]); (7, [(0, 0, 7); (1, 0, 6); (2, 0, 5); (3, 0, 4); (4, 0, 3); (5, 0, 2); (6, 0, 1)])].
(** conversion_cling8.c:170-233 [_mzed_cling8], degree 6 *)
Definition cling8_d6 : cpass := CPass true
  [(0, [(0, 56, 7); (1, 56, 6); (2, 56, 5); (3, 56, 4); (4, 56, 3); (5, 56, 2)]); (1, [(0, 48, 7); (1, 48, 6); (2, 48, 5); (3, 48, 4); (4, 48, 3); (5, 48, 2)]); (2, [(0, 40, 7); (1, 40, 6); (2, 40, 5); (3, 40, 4); (4, 40, 3); (5, 40, 2)]); (3, [(0, 32, 7); (1, 32, 6); (2, 32, 5); (3, 32, 4); (4, 32, 3); (5, 32, 2)]); (4, [(0, 24, 7); (1, 24, 6); (2, 24, 5); (3, 24, 4); (4, 24, 3); (5, 24, 2)]); (5, [(0, 16, 7); (1, 16, 6); (2, 16, 5); (3, 16, 4); (4, 16, 3); (5, 16, 2)]); (6, [(0, 8, 7); (1, 8, 6); (2, 8, 5); (3, 8, 4); (4, 8, 3); (5, 8, 2)]); (7, [(0, 0, 7); (1, 0, 6); (2, 0, 5); (3, 0, 4); (4, 0, 3); (5, 0, 2)])]
  [(0, [(0, 56, 7); (1, 56, 6); (2, 56, 5); (3, 56, 4); (4, 56, 3); (5, 56, 2)]); (1, [(0, 48, 7); (1, 48, 6); (2, 48, 5); (3, 48, 4); (4, 48, 3); (5, 48, 2)]); (2, [(0, 40, 7); (1, 40, 6); (2, 40, 5); (3, 40, 4); (4, 40, 3); (5, 40, 2)]); (3, [(0, 32, 7); (1, 32, 6); (2, 32, 5); (3, 32, 4); (4, 32, 3); (5, 32, 2)]); (4, [(0, 24, 7); (1, 24, 6); (2, 24, 5); (3, 24, 4); (4, 24, 3); (5, 24, 2)]); (5, [(0, 16, 7); (1, 16, 6); (2, 16, 5); (3, 16, 4); (4, 16, 3); (5, 16, 2)]); (6, [(0, 8, 7); (1, 8, 6); (2, 8, 5); (3, 8, 4); (4, 8, 3); (5, 8, 2)]); (7, [(0, 0, 7); (1, 0, 6); (2, 0, 5); (3, 0, 4); (4, 0, 3); (5, 0, 2)])].
(** conversion_cling8.c:234-275 [_mzed_cling8], degree 5 *)
Definition cling8_d5 : cpass := CPass true
  [(0, [(0, 56, 7); (1, 56, 6); (2, 56, 5); (3, 56, 4); (4, 56, 3)]); (1, [(0, 48, 7); (1, 48, 6); (2, 48, 5); (3, 48, 4); (4, 48, 3)]); (2, [(0, 40, 7); (1, 40, 6); (2, 40, 5); (3, 40, 4); (4, 40, 3)]); (3, [(0, 32, 7); (1, 32, 6); (2, 32, 5); (3, 32, 4); (4, 32, 3)]); (4, [(0, 24, 7); (1, 24, 6); (2, 24, 5); (3, 24, 4); (4, 24, 3)]); (5, [(0, 16, 7); (1, 16, 6); (2, 16, 5); (3, 16, 4); (4, 16, 3)]); (6, [(0, 8, 7); (1, 8, 6); (2, 8, 5); (3, 8, 4); (4, 8, 3)]); (7, [(0, 0, 7); (1, 0, 6); (2, 0, 5); (3, 0, 4); (4, 0, 3)])]
  [(0, [(0, 56, 7); (1, 56, 6); (2, 56, 5); (3, 56, 4); (4, 56, 3)]); (1, [(0, 48, 7); (1, 48, 6); (2, 48, 5); (3, 48, 4); (4, 48, 3)]); (2, [(0, 40, 7); (1, 40, 6); (2, 40, 5); (3, 40, 4); (4, 40, 3)]); (3, [(0, 32, 7); (1, 32, 6); (2, 32, 5); (3, 32, 4); (4, 32, 3)]); (4, [(0, 24, 7); (1, 24, 6); (2, 24, 5); (3, 24, 4); (4, 24, 3)]); (5, [(0, 16, 7); (1, 16, 6); (2, 16, 5); (3, 16, 4); (4, 16, 3)]); (6, [(0, 8, 7); (1, 8, 6); (2, 8, 5); (3, 8, 4); (4, 8, 3)]); (7, [(0, 0, 7); (1, 0, 6); (2, 0, 5); (3, 0, 4); (4, 0, 3)])].
(* slice16 pass slices: 0 1 2 3 4 5 6 7; 8 9 10 11; 12 13 14 15; 12 13 14; 12 13; 12; 8 9 10; 8 9; 8 *)
(** conversion_slice16.c:63-116 [_mzed_slice16], slices 0-7 *)
Definition slice16_0_7 : spass := SPass false false
  [(0, [(0, 15, 60); (1, 15, 56); (2, 15, 52); (3, 15, 48); (4, 15, 44); (5, 15, 40); (6, 15, 36); (7, 15, 32); (8, 15, 28); (9, 15, 24); (10, 15, 20); (11, 15, 16); (12, 15, 12); (13, 15, 8); (14, 15, 4); (15, 15, 0)]); (1, [(0, 14, 60); (1, 14, 56); (2, 14, 52); (3, 14, 48); (4, 14, 44); (5, 14, 40); (6, 14, 36); (7, 14, 32); (8, 14, 28); (9, 14, 24); (10, 14, 20); (11, 14, 16); (12, 14, 12); (13, 14, 8); (14, 14, 4); (15, 14, 0)]); (2, [(0, 13, 60); (1, 13, 56); (2, 13, 52); (3, 13, 48); (4, 13, 44); (5, 13, 40); (6, 13, 36); (7, 13, 32); (8, 13, 28); (9, 13, 24); (10, 13, 20); (11, 13, 16); (12, 13, 12); (13, 13, 8); (14, 13, 4); (15, 13, 0)]); (3, [(0, 12, 60); (1, 12, 56); (2, 12, 52); (3, 12, 48); (4, 12, 44); (5, 12, 40); (6, 12, 36); (7, 12, 32); (8, 12, 28); (9, 12, 24); (10, 12, 20); (11, 12, 16); (12, 12, 12); (13, 12, 8); (14, 12, 4); (15, 12, 0)]); (4, [(0, 11, 60); (1, 11, 56); (2, 11, 52); (3, 11, 48); (4, 11, 44); (5, 11, 40); (6, 11, 36); (7, 11, 32); (8, 11, 28); (9, 11, 24); (10, 11, 20); (11, 11, 16); (12, 11, 12); (13, 11, 8); (14, 11, 4); (15, 11, 0)]); (5, [(0, 10, 60); (1, 10, 56); (2, 10, 52); (3, 10, 48); (4, 10, 44); (5, 10, 40); (6, 10, 36); (7, 10, 32); (8, 10, 28); (9, 10, 24); (10, 10, 20); (11, 10, 16); (12, 10, 12); (13, 10, 8); (14, 10, 4); (15, 10, 0)]); (6, [(0, 9, 60); (1, 9, 56); (2, 9, 52); (3, 9, 48); (4, 9, 44); (5, 9, 40); (6, 9, 36); (7, 9, 32); (8, 9, 28); (9, 9, 24); (10, 9, 20); (11, 9, 16); (12, 9, 12); (13, 9, 8); (14, 9, 4); (15, 9, 0)]); (7, [(0, 8, 60); (1, 8, 56); (2, 8, 52); (3, 8, 48); (4, 8, 44); (5, 8, 40); (6, 8, 36); (7, 8, 32); (8, 8, 28); (9, 8, 24); (10, 8, 20); (11, 8, 16); (12, 8, 12); (13, 8, 8); (14, 8, 4); (15, 8, 0)])]
  [[(0, (0, 15, 60)); (1, (0, 14, 60)); (2, (0, 13, 60)); (3, (0, 12, 60)); (4, (0, 11, 60)); (5, (0, 10, 60)); (6, (0, 9, 60)); (7, (0, 8, 60))]; [(0, (1, 15, 56)); (1, (1, 14, 56)); (2, (1, 13, 56)); (3, (1, 12, 56)); (4, (1, 11, 56)); (5, (1, 10, 56)); (6, (1, 9, 56)); (7, (1, 8, 56))]; [(0, (2, 15, 52)); (1, (2, 14, 52)); (2, (2, 13, 52)); (3, (2, 12, 52)); (4, (2, 11, 52)); (5, (2, 10, 52)); (6, (2, 9, 52)); (7, (2, 8, 52))]; [(0, (3, 15, 48)); (1, (3, 14, 48)); (2, (3, 13, 48)); (3, (3, 12, 48)); (4, (3, 11, 48)); (5, (3, 10, 48)); (6, (3, 9, 48)); (7, (3, 8, 48))]; [(0, (4, 15, 44)); (1, (4, 14, 44)); (2, (4, 13, 44)); (3, (4, 12, 44)); (4, (4, 11, 44)); (5, (4, 10, 44)); (6, (4, 9, 44)); (7, (4, 8, 44))]; [(0, (5, 15, 40)); (1, (5, 14, 40)); (2, (5, 13, 40)); (3, (5, 12, 40)); (4, (5, 11, 40)); (5, (5, 10, 40)); (6, (5, 9, 40)); (7, (5, 8, 40))]; [(0, (6, 15, 36)); (1, (6, 14, 36)); (2, (6, 13, 36)); (3, (6, 12, 36)); (4, (6, 11, 36)); (5, (6, 10, 36)); (6, (6, 9, 36)); (7, (6, 8, 36))]; [(0, (7, 15, 32)); (1, (7, 14, 32)); (2, (7, 13, 32)); (3, (7, 12, 32)); (4, (7, 11, 32)); (5, (7, 10, 32)); (6, (7, 9, 32)); (7, (7, 8, 32))]; [(0, (8, 15, 28)); (1, (8, 14, 28)); (2, (8, 13, 28)); (3, (8, 12, 28)); (4, (8, 11, 28)); (5, (8, 10, 28)); (6, (8, 9, 28)); (7, (8, 8, 28))]; [(0, (9, 15, 24)); (1, (9, 14, 24)); (2, (9, 13, 24)); (3, (9, 12, 24)); (4, (9, 11, 24)); (5, (9, 10, 24)); (6, (9, 9, 24)); (7, (9, 8, 24))]; [(0, (10, 15, 20)); (1, (10, 14, 20)); (2, (10, 13, 20)); (3, (10, 12, 20)); (4, (10, 11, 20)); (5, (10, 10, 20)); (6, (10, 9, 20)); (7, (10, 8, 20))]; [(0, (11, 15, 16)); (1, (11, 14, 16)); (2, (11, 13, 16)); (3, (11, 12, 16)); (4, (11, 11, 16)); (5, (11, 10, 16)); (6, (11, 9, 16)); (7, (11, 8, 16))]; [(0, (12, 15, 12)); (1, (12, 14, 12)); (2, (12, 13, 12)); (3, (12, 12, 12)); (4, (12, 11, 12)); (5, (12, 10, 12)); (6, (12, 9, 12)); (7, (12, 8, 12))]; [(0, (13, 15, 8)); (1, (13, 14, 8)); (2, (13, 13, 8)); (3, (13, 12, 8)); (4, (13, 11, 8)); (5, (13, 10, 8)); (6, (13, 9, 8)); (7, (13, 8, 8))]; [(0, (14, 15, 4)); (1, (14, 14, 4)); (2, (14, 13, 4)); (3, (14, 12, 4)); (4, (14, 11, 4)); (5, (14, 10, 4)); (6, (14, 9, 4)); (7, (14, 8, 4))]; [(0, (15, 15, 0)); (1, (15, 14, 0)); (2, (15, 13, 0)); (3, (15, 12, 0)); (4, (15, 11, 0)); (5, (15, 10, 0)); (6, (15, 9, 0)); (7, (15, 8, 0))]].
(** conversion_slice16.c:117-160 [_mzed_slice16], slices 8-11 *)
Definition slice16_8_11 : spass := SPass false false
  [(8, [(0, 7, 60); (1, 7, 56); (2, 7, 52); (3, 7, 48); (4, 7, 44); (5, 7, 40); (6, 7, 36); (7, 7, 32); (8, 7, 28); (9, 7, 24); (10, 7, 20); (11, 7, 16); (12, 7, 12); (13, 7, 8); (14, 7, 4); (15, 7, 0)]); (9, [(0, 6, 60); (1, 6, 56); (2, 6, 52); (3, 6, 48); (4, 6, 44); (5, 6, 40); (6, 6, 36); (7, 6, 32); (8, 6, 28); (9, 6, 24); (10, 6, 20); (11, 6, 16); (12, 6, 12); (13, 6, 8); (14, 6, 4); (15, 6, 0)]); (10, [(0, 5, 60); (1, 5, 56); (2, 5, 52); (3, 5, 48); (4, 5, 44); (5, 5, 40); (6, 5, 36); (7, 5, 32); (8, 5, 28); (9, 5, 24); (10, 5, 20); (11, 5, 16); (12, 5, 12); (13, 5, 8); (14, 5, 4); (15, 5, 0)]); (11, [(0, 4, 60); (1, 4, 56); (2, 4, 52); (3, 4, 48); (4, 4, 44); (5, 4, 40); (6, 4, 36); (7, 4, 32); (8, 4, 28); (9, 4, 24); (10, 4, 20); (11, 4, 16); (12, 4, 12); (13, 4, 8); (14, 4, 4); (15, 4, 0)])]
  [[(8, (0, 7, 60)); (9, (0, 6, 60)); (10, (0, 5, 60)); (11, (0, 4, 60))]; [(8, (1, 7, 56)); (9, (1, 6, 56)); (10, (1, 5, 56)); (11, (1, 4, 56))]; [(8, (2, 7, 52)); (9, (2, 6, 52)); (10, (2, 5, 52)); (11, (2, 4, 52))]; [(8, (3, 7, 48)); (9, (3, 6, 48)); (10, (3, 5, 48)); (11, (3, 4, 48))]; [(8, (4, 7, 44)); (9, (4, 6, 44)); (10, (4, 5, 44)); (11, (4, 4, 44))]; [(8, (5, 7, 40)); (9, (5, 6, 40)); (10, (5, 5, 40)); (11, (5, 4, 40))]; [(8, (6, 7, 36)); (9, (6, 6, 36)); (10, (6, 5, 36)); (11, (6, 4, 36))]; [(8, (7, 7, 32)); (9, (7, 6, 32)); (10, (7, 5, 32)); (11, (7, 4, 32))]; [(8, (8, 7, 28)); (9, (8, 6, 28)); (10, (8, 5, 28)); (11, (8, 4, 28))]; [(8, (9, 7, 24)); (9, (9, 6, 24)); (10, (9, 5, 24)); (11, (9, 4, 24))]; [(8, (10, 7, 20)); (9, (10, 6, 20)); (10, (10, 5, 20)); (11, (10, 4, 20))]; [(8, (11, 7, 16)); (9, (11, 6, 16)); (10, (11, 5, 16)); (11, (11, 4, 16))]; [(8, (12, 7, 12)); (9, (12, 6, 12)); (10, (12, 5, 12)); (11, (12, 4, 12))]; [(8, (13, 7, 8)); (9, (13, 6, 8)); (10, (13, 5, 8)); (11, (13, 4, 8))]; [(8, (14, 7, 4)); (9, (14, 6, 4)); (10, (14, 5, 4)); (11, (14, 4, 4))]; [(8, (15, 7, 0)); (9, (15, 6, 0)); (10, (15, 5, 0)); (11, (15, 4, 0))]].
(** conversion_slice16.c:161-203 [_mzed_slice16], slices 12-15 *)
Definition slice16_12_15 : spass := SPass false false
  [(12, [(0, 3, 60); (1, 3, 56); (2, 3, 52); (3, 3, 48); (4, 3, 44); (5, 3, 40); (6, 3, 36); (7, 3, 32); (8, 3, 28); (9, 3, 24); (10, 3, 20); (11, 3, 16); (12, 3, 12); (13, 3, 8); (14, 3, 4); (15, 3, 0)]); (13, [(0, 2, 60); (1, 2, 56); (2, 2, 52); (3, 2, 48); (4, 2, 44); (5, 2, 40); (6, 2, 36); (7, 2, 32); (8, 2, 28); (9, 2, 24); (10, 2, 20); (11, 2, 16); (12, 2, 12); (13, 2, 8); (14, 2, 4); (15, 2, 0)]); (14, [(0, 1, 60); (1, 1, 56); (2, 1, 52); (3, 1, 48); (4, 1, 44); (5, 1, 40); (6, 1, 36); (7, 1, 32); (8, 1, 28); (9, 1, 24); (10, 1, 20); (11, 1, 16); (12, 1, 12); (13, 1, 8); (14, 1, 4); (15, 1, 0)]); (15, [(0, 0, 60); (1, 0, 56); (2, 0, 52); (3, 0, 48); (4, 0, 44); (5, 0, 40); (6, 0, 36); (7, 0, 32); (8, 0, 28); (9, 0, 24); (10, 0, 20); (11, 0, 16); (12, 0, 12); (13, 0, 8); (14, 0, 4); (15, 0, 0)])]
  [[(12, (0, 3, 60)); (13, (0, 2, 60)); (14, (0, 1, 60)); (15, (0, 0, 60))]; [(12, (1, 3, 56)); (13, (1, 2, 56)); (14, (1, 1, 56)); (15, (1, 0, 56))]; [(12, (2, 3, 52)); (13, (2, 2, 52)); (14, (2, 1, 52)); (15, (2, 0, 52))]; [(12, (3, 3, 48)); (13, (3, 2, 48)); (14, (3, 1, 48)); (15, (3, 0, 48))]; [(12, (4, 3, 44)); (13, (4, 2, 44)); (14, (4, 1, 44)); (15, (4, 0, 44))]; [(12, (5, 3, 40)); (13, (5, 2, 40)); (14, (5, 1, 40)); (15, (5, 0, 40))]; [(12, (6, 3, 36)); (13, (6, 2, 36)); (14, (6, 1, 36)); (15, (6, 0, 36))]; [(12, (7, 3, 32)); (13, (7, 2, 32)); (14, (7, 1, 32)); (15, (7, 0, 32))]; [(12, (8, 3, 28)); (13, (8, 2, 28)); (14, (8, 1, 28)); (15, (8, 0, 28))]; [(12, (9, 3, 24)); (13, (9, 2, 24)); (14, (9, 1, 24)); (15, (9, 0, 24))]; [(12, (10, 3, 20)); (13, (10, 2, 20)); (14, (10, 1, 20)); (15, (10, 0, 20))]; [(12, (11, 3, 16)); (13, (11, 2, 16)); (14, (11, 1, 16)); (15, (11, 0, 16))]; [(12, (12, 3, 12)); (13, (12, 2, 12)); (14, (12, 1, 12)); (15, (12, 0, 12))]; [(12, (13, 3, 8)); (13, (13, 2, 8)); (14, (13, 1, 8)); (15, (13, 0, 8))]; [(12, (14, 3, 4)); (13, (14, 2, 4)); (14, (14, 1, 4)); (15, (14, 0, 4))]; [(12, (15, 3, 0)); (13, (15, 2, 0)); (14, (15, 1, 0)); (15, (15, 0, 0))]].
(** conversion_slice16.c:204-243 [_mzed_slice16], slices 12-14 *)
Definition slice16_12_14 : spass := SPass false false
  [(12, [(0, 3, 60); (1, 3, 56); (2, 3, 52); (3, 3, 48); (4, 3, 44); (5, 3, 40); (6, 3, 36); (7, 3, 32); (8, 3, 28); (9, 3, 24); (10, 3, 20); (11, 3, 16); (12, 3, 12); (13, 3, 8); (14, 3, 4); (15, 3, 0)]); (13, [(0, 2, 60); (1, 2, 56); (2, 2, 52); (3, 2, 48); (4, 2, 44); (5, 2, 40); (6, 2, 36); (7, 2, 32); (8, 2, 28); (9, 2, 24); (10, 2, 20); (11, 2, 16); (12, 2, 12); (13, 2, 8); (14, 2, 4); (15, 2, 0)]); (14, [(0, 1, 60); (1, 1, 56); (2, 1, 52); (3, 1, 48); (4, 1, 44); (5, 1, 40); (6, 1, 36); (7, 1, 32); (8, 1, 28); (9, 1, 24); (10, 1, 20); (11, 1, 16); (12, 1, 12); (13, 1, 8); (14, 1, 4); (15, 1, 0)])]
  [[(12, (0, 3, 60)); (13, (0, 2, 60)); (14, (0, 1, 60))]; [(12, (1, 3, 56)); (13, (1, 2, 56)); (14, (1, 1, 56))]; [(12, (2, 3, 52)); (13, (2, 2, 52)); (14, (2, 1, 52))]; [(12, (3, 3, 48)); (13, (3, 2, 48)); (14, (3, 1, 48))]; [(12, (4, 3, 44)); (13, (4, 2, 44)); (14, (4, 1, 44))]; [(12, (5, 3, 40)); (13, (5, 2, 40)); (14, (5, 1, 40))]; [(12, (6, 3, 36)); (13, (6, 2, 36)); (14, (6, 1, 36))]; [(12, (7, 3, 32)); (13, (7, 2, 32)); (14, (7, 1, 32))]; [(12, (8, 3, 28)); (13, (8, 2, 28)); (14, (8, 1, 28))]; [(12, (9, 3, 24)); (13, (9, 2, 24)); (14, (9, 1, 24))]; [(12, (10, 3, 20)); (13, (10, 2, 20)); (14, (10, 1, 20))]; [(12, (11, 3, 16)); (13, (11, 2, 16)); (14, (11, 1, 16))]; [(12, (12, 3, 12)); (13, (12, 2, 12)); (14, (12, 1, 12))]; [(12, (13, 3, 8)); (13, (13, 2, 8)); (14, (13, 1, 8))]; [(12, (14, 3, 4)); (13, (14, 2, 4)); (14, (14, 1, 4))]; [(12, (15, 3, 0)); (13, (15, 2, 0)); (14, (15, 1, 0))]].
(** conversion_slice16.c:244-280 [_mzed_slice16], slices 12-13 *)
Definition slice16_12_13 : spass := SPass false false
  [(12, [(0, 3, 60); (1, 3, 56); (2, 3, 52); (3, 3, 48); (4, 3, 44); (5, 3, 40); (6, 3, 36); (7, 3, 32); (8, 3, 28); (9, 3, 24); (10, 3, 20); (11, 3, 16); (12, 3, 12); (13, 3, 8); (14, 3, 4); (15, 3, 0)]); (13, [(0, 2, 60); (1, 2, 56); (2, 2, 52); (3, 2, 48); (4, 2, 44); (5, 2, 40); (6, 2, 36); (7, 2, 32); (8, 2, 28); (9, 2, 24); (10, 2, 20); (11, 2, 16); (12, 2, 12); (13, 2, 8); (14, 2, 4); (15, 2, 0)])]
  [[(12, (0, 3, 60)); (13, (0, 2, 60))]; [(12, (1, 3, 56)); (13, (1, 2, 56))]; [(12, (2, 3, 52)); (13, (2, 2, 52))]; [(12, (3, 3, 48)); (13, (3, 2, 48))]; [(12, (4, 3, 44)); (13, (4, 2, 44))]; [(12, (5, 3, 40)); (13, (5, 2, 40))]; [(12, (6, 3, 36)); (13, (6, 2, 36))]; [(12, (7, 3, 32)); (13, (7, 2, 32))]; [(12, (8, 3, 28)); (13, (8, 2, 28))]; [(12, (9, 3, 24)); (13, (9, 2, 24))]; [(12, (10, 3, 20)); (13, (10, 2, 20))]; [(12, (11, 3, 16)); (13, (11, 2, 16))]; [(12, (12, 3, 12)); (13, (12, 2, 12))]; [(12, (13, 3, 8)); (13, (13, 2, 8))]; [(12, (14, 3, 4)); (13, (14, 2, 4))]; [(12, (15, 3, 0)); (13, (15, 2, 0))]].
(** conversion_slice16.c:281-317 [_mzed_slice16], slices 12-12 *)
Definition slice16_12_12 : spass := SPass false false
  [(12, [(0, 3, 60); (1, 3, 56); (2, 3, 52); (3, 3, 48); (4, 3, 44); (5, 3, 40); (6, 3, 36); (7, 3, 32); (8, 3, 28); (9, 3, 24); (10, 3, 20); (11, 3, 16); (12, 3, 12); (13, 3, 8); (14, 3, 4); (15, 3, 0)])]
  [[(12, (0, 3, 60))]; [(12, (1, 3, 56))]; [(12, (2, 3, 52))]; [(12, (3, 3, 48))]; [(12, (4, 3, 44))]; [(12, (5, 3, 40))]; [(12, (6, 3, 36))]; [(12, (7, 3, 32))]; [(12, (8, 3, 28))]; [(12, (9, 3, 24))]; [(12, (10, 3, 20))]; [(12, (11, 3, 16))]; [(12, (12, 3, 12))]; [(12, (13, 3, 8))]; [(12, (14, 3, 4))]; [(12, (15, 3, 0))]].
(** conversion_slice16.c:318-357 [_mzed_slice16], slices 8-10 *)
Definition slice16_8_10 : spass := SPass false false
  [(8, [(0, 7, 60); (1, 7, 56); (2, 7, 52); (3, 7, 48); (4, 7, 44); (5, 7, 40); (6, 7, 36); (7, 7, 32); (8, 7, 28); (9, 7, 24); (10, 7, 20); (11, 7, 16); (12, 7, 12); (13, 7, 8); (14, 7, 4); (15, 7, 0)]); (9, [(0, 6, 60); (1, 6, 56); (2, 6, 52); (3, 6, 48); (4, 6, 44); (5, 6, 40); (6, 6, 36); (7, 6, 32); (8, 6, 28); (9, 6, 24); (10, 6, 20); (11, 6, 16); (12, 6, 12); (13, 6, 8); (14, 6, 4); (15, 6, 0)]); (10, [(0, 5, 60); (1, 5, 56); (2, 5, 52); (3, 5, 48); (4, 5, 44); (5, 5, 40); (6, 5, 36); (7, 5, 32); (8, 5, 28); (9, 5, 24); (10, 5, 20); (11, 5, 16); (12, 5, 12); (13, 5, 8); (14, 5, 4); (15, 5, 0)])]
  [[(8, (0, 7, 60)); (9, (0, 6, 60)); (10, (0, 5, 60))]; [(8, (1, 7, 56)); (9, (1, 6, 56)); (10, (1, 5, 56))]; [(8, (2, 7, 52)); (9, (2, 6, 52)); (10, (2, 5, 52))]; [(8, (3, 7, 48)); (9, (3, 6, 48)); (10, (3, 5, 48))]; [(8, (4, 7, 44)); (9, (4, 6, 44)); (10, (4, 5, 44))]; [(8, (5, 7, 40)); (9, (5, 6, 40)); (10, (5, 5, 40))]; [(8, (6, 7, 36)); (9, (6, 6, 36)); (10, (6, 5, 36))]; [(8, (7, 7, 32)); (9, (7, 6, 32)); (10, (7, 5, 32))]; [(8, (8, 7, 28)); (9, (8, 6, 28)); (10, (8, 5, 28))]; [(8, (9, 7, 24)); (9, (9, 6, 24)); (10, (9, 5, 24))]; [(8, (10, 7, 20)); (9, (10, 6, 20)); (10, (10, 5, 20))]; [(8, (11, 7, 16)); (9, (11, 6, 16)); (10, (11, 5, 16))]; [(8, (12, 7, 12)); (9, (12, 6, 12)); (10, (12, 5, 12))]; [(8, (13, 7, 8)); (9, (13, 6, 8)); (10, (13, 5, 8))]; [(8, (14, 7, 4)); (9, (14, 6, 4)); (10, (14, 5, 4))]; [(8, (15, 7, 0)); (9, (15, 6, 0)); (10, (15, 5, 0))]].
(** conversion_slice16.c:358-394 [_mzed_slice16], slices 8-9 *)
Definition slice16_8_9 : spass := SPass false false
  [(8, [(0, 7, 60); (1, 7, 56); (2, 7, 52); (3, 7, 48); (4, 7, 44); (5, 7, 40); (6, 7, 36); (7, 7, 32); (8, 7, 28); (9, 7, 24); (10, 7, 20); (11, 7, 16); (12, 7, 12); (13, 7, 8); (14, 7, 4); (15, 7, 0)]); (9, [(0, 6, 60); (1, 6, 56); (2, 6, 52); (3, 6, 48); (4, 6, 44); (5, 6, 40); (6, 6, 36); (7, 6, 32); (8, 6, 28); (9, 6, 24); (10, 6, 20); (11, 6, 16); (12, 6, 12); (13, 6, 8); (14, 6, 4); (15, 6, 0)])]
  [[(8, (0, 7, 60)); (9, (0, 6, 60))]; [(8, (1, 7, 56)); (9, (1, 6, 56))]; [(8, (2, 7, 52)); (9, (2, 6, 52))]; [(8, (3, 7, 48)); (9, (3, 6, 48))]; [(8, (4, 7, 44)); (9, (4, 6, 44))]; [(8, (5, 7, 40)); (9, (5, 6, 40))]; [(8, (6, 7, 36)); (9, (6, 6, 36))]; [(8, (7, 7, 32)); (9, (7, 6, 32))]; [(8, (8, 7, 28)); (9, (8, 6, 28))]; [(8, (9, 7, 24)); (9, (9, 6, 24))]; [(8, (10, 7, 20)); (9, (10, 6, 20))]; [(8, (11, 7, 16)); (9, (11, 6, 16))]; [(8, (12, 7, 12)); (9, (12, 6, 12))]; [(8, (13, 7, 8)); (9, (13, 6, 8))]; [(8, (14, 7, 4)); (9, (14, 6, 4))]; [(8, (15, 7, 0)); (9, (15, 6, 0))]].
(** conversion_slice16.c:395-433 [_mzed_slice16], slices 8-8 *)
Definition slice16_8_8 : spass := SPass false false
  [(8, [(0, 7, 60); (1, 7, 56); (2, 7, 52); (3, 7, 48); (4, 7, 44); (5, 7, 40); (6, 7, 36); (7, 7, 32); (8, 7, 28); (9, 7, 24); (10, 7, 20); (11, 7, 16); (12, 7, 12); (13, 7, 8); (14, 7, 4); (15, 7, 0)])]
  [[(8, (0, 7, 60))]; [(8, (1, 7, 56))]; [(8, (2, 7, 52))]; [(8, (3, 7, 48))]; [(8, (4, 7, 44))]; [(8, (5, 7, 40))]; [(8, (6, 7, 36))]; [(8, (7, 7, 32))]; [(8, (8, 7, 28))]; [(8, (9, 7, 24))]; [(8, (10, 7, 20))]; [(8, (11, 7, 16))]; [(8, (12, 7, 12))]; [(8, (13, 7, 8))]; [(8, (14, 7, 4))]; [(8, (15, 7, 0))]].
(** conversion_cling16.c:36-125 [_mzed_cling16], slices 0-7 *)
Definition cling16_0_7 : cpass := CPass true
  [(0, [(0, 60, 15); (1, 60, 14); (2, 60, 13); (3, 60, 12); (4, 60, 11); (5, 60, 10); (6, 60, 9); (7, 60, 8)]); (1, [(0, 56, 15); (1, 56, 14); (2, 56, 13); (3, 56, 12); (4, 56, 11); (5, 56, 10); (6, 56, 9); (7, 56, 8)]); (2, [(0, 52, 15); (1, 52, 14); (2, 52, 13); (3, 52, 12); (4, 52, 11); (5, 52, 10); (6, 52, 9); (7, 52, 8)]); (3, [(0, 48, 15); (1, 48, 14); (2, 48, 13); (3, 48, 12); (4, 48, 11); (5, 48, 10); (6, 48, 9); (7, 48, 8)]); (4, [(0, 44, 15); (1, 44, 14); (2, 44, 13); (3, 44, 12); (4, 44, 11); (5, 44, 10); (6, 44, 9); (7, 44, 8)]); (5, [(0, 40, 15); (1, 40, 14); (2, 40, 13); (3, 40, 12); (4, 40, 11); (5, 40, 10); (6, 40, 9); (7, 40, 8)]); (6, [(0, 36, 15); (1, 36, 14); (2, 36, 13); (3, 36, 12); (4, 36, 11); (5, 36, 10); (6, 36, 9); (7, 36, 8)]); (7, [(0, 32, 15); (1, 32, 14); (2, 32, 13); (3, 32, 12); (4, 32, 11); (5, 32, 10); (6, 32, 9); (7, 32, 8)]); (8, [(0, 28, 15); (1, 28, 14); (2, 28, 13); (3, 28, 12); (4, 28, 11); (5, 28, 10); (6, 28, 9); (7, 28, 8)]); (9, [(0, 24, 15); (1, 24, 14); (2, 24, 13); (3, 24, 12); (4, 24, 11); (5, 24, 10); (6, 24, 9); (7, 24, 8)]); (10, [(0, 20, 15); (1, 20, 14); (2, 20, 13); (3, 20, 12); (4, 20, 11); (5, 20, 10); (6, 20, 9); (7, 20, 8)]); (11, [(0, 16, 15); (1, 16, 14); (2, 16, 13); (3, 16, 12); (4, 16, 11); (5, 16, 10); (6, 16, 9); (7, 16, 8)]); (12, [(0, 12, 15); (1, 12, 14); (2, 12, 13); (3, 12, 12); (4, 12, 11); (5, 12, 10); (6, 12, 9); (7, 12, 8)]); (13, [(0, 8, 15); (1, 8, 14); (2, 8, 13); (3, 8, 12); (4, 8, 11); (5, 8, 10); (6, 8, 9); (7, 8, 8)]); (14, [(0, 4, 15); (1, 4, 14); (2, 4, 13); (3, 4, 12); (4, 4, 11); (5, 4, 10); (6, 4, 9); (7, 4, 8)]); (15, [(0, 0, 15); (1, 0, 14); (2, 0, 13); (3, 0, 12); (4, 0, 11); (5, 0, 10); (6, 0, 9); (7, 0, 8)])]
  [(0, [(0, 60, 15); (1, 60, 14); (2, 60, 13); (3, 60, 12); (4, 60, 11); (5, 60, 10); (6, 60, 9); (7, 60, 8)]); (1, [(0, 56, 15); (1, 56, 14); (2, 56, 13); (3, 56, 12); (4, 56, 11); (5, 56, 10); (6, 56, 9); (7, 56, 8)]); (2, [(0, 52, 15); (1, 52, 14); (2, 52, 13); (3, 52, 12); (4, 52, 11); (5, 52, 10); (6, 52, 9); (7, 52, 8)]); (3, [(0, 48, 15); (1, 48, 14); (2, 48, 13); (3, 48, 12); (4, 48, 11); (5, 48, 10); (6, 48, 9); (7, 48, 8)]); (4, [(0, 44, 15); (1, 44, 14); (2, 44, 13); (3, 44, 12); (4, 44, 11); (5, 44, 10); (6, 44, 9); (7, 44, 8)]); (5, [(0, 40, 15); (1, 40, 14); (2, 40, 13); (3, 40, 12); (4, 40, 11); (5, 40, 10); (6, 40, 9); (7, 40, 8)]); (6, [(0, 36, 15); (1, 36, 14); (2, 36, 13); (3, 36, 12); (4, 36, 11); (5, 36, 10); (6, 36, 9); (7, 36, 8)]); (7, [(0, 32, 15); (1, 32, 14); (2, 32, 13); (3, 32, 12); (4, 32, 11); (5, 32, 10); (6, 32, 9); (7, 32, 8)]); (8, [(0, 28, 15); (1, 28, 14); (2, 28, 13); (3, 28, 12); (4, 28, 11); (5, 28, 10); (6, 28, 9); (7, 28, 8)]); (9, [(0, 24, 15); (1, 24, 14); (2, 24, 13); (3, 24, 12); (4, 24, 11); (5, 24, 10); (6, 24, 9); (7, 24, 8)]); (10, [(0, 20, 15); (1, 20, 14); (2, 20, 13); (3, 20, 12); (4, 20, 11); (5, 20, 10); (6, 20, 9); (7, 20, 8)]); (11, [(0, 16, 15); (1, 16, 14); (2, 16, 13); (3, 16, 12); (4, 16, 11); (5, 16, 10); (6, 16, 9); (7, 16, 8)]); (12, [(0, 12, 15); (1, 12, 14); (2, 12, 13); (3, 12, 12); (4, 12, 11); (5, 12, 10); (6, 12, 9); (7, 12, 8)]); (13, [(0, 8, 15); (1, 8, 14); (2, 8, 13); (3, 8, 12); (4, 8, 11); (5, 8, 10); (6, 8, 9); (7, 8, 8)]); (14, [(0, 4, 15); (1, 4, 14); (2, 4, 13); (3, 4, 12); (4, 4, 11); (5, 4, 10); (6, 4, 9); (7, 4, 8)]); (15, [(0, 0, 15); (1, 0, 14); (2, 0, 13); (3, 0, 12); (4, 0, 11); (5, 0, 10); (6, 0, 9); (7, 0, 8)])].
(** conversion_cling16.c:126-175 [_mzed_cling16], slices 8-8 *)
Definition cling16_8_8 : cpass := CPass false
  [(0, [(8, 60, 7)]); (1, [(8, 56, 7)]); (2, [(8, 52, 7)]); (3, [(8, 48, 7)]); (4, [(8, 44, 7)]); (5, [(8, 40, 7)]); (6, [(8, 36, 7)]); (7, [(8, 32, 7)]); (8, [(8, 28, 7)]); (9, [(8, 24, 7)]); (10, [(8, 20, 7)]); (11, [(8, 16, 7)]); (12, [(8, 12, 7)]); (13, [(8, 8, 7)]); (14, [(8, 4, 7)]); (15, [(8, 0, 7)])]
  [(0, [(8, 60, 7)]); (1, [(8, 56, 7)]); (2, [(8, 52, 7)]); (3, [(8, 48, 7)]); (4, [(8, 44, 7)]); (5, [(8, 40, 7)]); (6, [(8, 36, 7)]); (7, [(8, 32, 7)]); (8, [(8, 28, 7)]); (9, [(8, 24, 7)]); (10, [(8, 20, 7)]); (11, [(8, 16, 7)]); (12, [(8, 12, 7)]); (13, [(8, 8, 7)]); (14, [(8, 4, 7)]); (15, [(8, 0, 7)])].
(** conversion_cling16.c:176-226 [_mzed_cling16], slices 8-9 *)
Definition cling16_8_9 : cpass := CPass false
  [(0, [(8, 60, 7); (9, 60, 6)]); (1, [(8, 56, 7); (9, 56, 6)]); (2, [(8, 52, 7); (9, 52, 6)]); (3, [(8, 48, 7); (9, 48, 6)]); (4, [(8, 44, 7); (9, 44, 6)]); (5, [(8, 40, 7); (9, 40, 6)]); (6, [(8, 36, 7); (9, 36, 6)]); (7, [(8, 32, 7); (9, 32, 6)]); (8, [(8, 28, 7); (9, 28, 6)]); (9, [(8, 24, 7); (9, 24, 6)]); (10, [(8, 20, 7); (9, 20, 6)]); (11, [(8, 16, 7); (9, 16, 6)]); (12, [(8, 12, 7); (9, 12, 6)]); (13, [(8, 8, 7); (9, 8, 6)]); (14, [(8, 4, 7); (9, 4, 6)]); (15, [(8, 0, 7); (9, 0, 6)])]
  [(0, [(8, 60, 7); (9, 60, 6)]); (1, [(8, 56, 7); (9, 56, 6)]); (2, [(8, 52, 7); (9, 52, 6)]); (3, [(8, 48, 7); (9, 48, 6)]); (4, [(8, 44, 7); (9, 44, 6)]); (5, [(8, 40, 7); (9, 40, 6)]); (6, [(8, 36, 7); (9, 36, 6)]); (7, [(8, 32, 7); (9, 32, 6)]); (8, [(8, 28, 7); (9, 28, 6)]); (9, [(8, 24, 7); (9, 24, 6)]); (10, [(8, 20, 7); (9, 20, 6)]); (11, [(8, 16, 7); (9, 16, 6)]); (12, [(8, 12, 7); (9, 12, 6)]); (13, [(8, 8, 7); (9, 8, 6)]); (14, [(8, 4, 7); (9, 4, 6)]); (15, [(8, 0, 7); (9, 0, 6)])].
(** conversion_cling16.c:227-279 [_mzed_cling16], slices 8-10 *)
Definition cling16_8_10 : cpass := CPass false
  [(0, [(8, 60, 7); (9, 60, 6); (10, 60, 5)]); (1, [(8, 56, 7); (9, 56, 6); (10, 56, 5)]); (2, [(8, 52, 7); (9, 52, 6); (10, 52, 5)]); (3, [(8, 48, 7); (9, 48, 6); (10, 48, 5)]); (4, [(8, 44, 7); (9, 44, 6); (10, 44, 5)]); (5, [(8, 40, 7); (9, 40, 6); (10, 40, 5)]); (6, [(8, 36, 7); (9, 36, 6); (10, 36, 5)]); (7, [(8, 32, 7); (9, 32, 6); (10, 32, 5)]); (8, [(8, 28, 7); (9, 28, 6); (10, 28, 5)]); (9, [(8, 24, 7); (9, 24, 6); (10, 24, 5)]); (10, [(8, 20, 7); (9, 20, 6); (10, 20, 5)]); (11, [(8, 16, 7); (9, 16, 6); (10, 16, 5)]); (12, [(8, 12, 7); (9, 12, 6); (10, 12, 5)]); (13, [(8, 8, 7); (9, 8, 6); (10, 8, 5)]); (14, [(8, 4, 7); (9, 4, 6); (10, 4, 5)]); (15, [(8, 0, 7); (9, 0, 6); (10, 0, 5)])]
  [(0, [(8, 60, 7); (9, 60, 6); (10, 60, 5)]); (1, [(8, 56, 7); (9, 56, 6); (10, 56, 5)]); (2, [(8, 52, 7); (9, 52, 6); (10, 52, 5)]); (3, [(8, 48, 7); (9, 48, 6); (10, 48, 5)]); (4, [(8, 44, 7); (9, 44, 6); (10, 44, 5)]); (5, [(8, 40, 7); (9, 40, 6); (10, 40, 5)]); (6, [(8, 36, 7); (9, 36, 6); (10, 36, 5)]); (7, [(8, 32, 7); (9, 32, 6); (10, 32, 5)]); (8, [(8, 28, 7); (9, 28, 6); (10, 28, 5)]); (9, [(8, 24, 7); (9, 24, 6); (10, 24, 5)]); (10, [(8, 20, 7); (9, 20, 6); (10, 20, 5)]); (11, [(8, 16, 7); (9, 16, 6); (10, 16, 5)]); (12, [(8, 12, 7); (9, 12, 6); (10, 12, 5)]); (13, [(8, 8, 7); (9, 8, 6); (10, 8, 5)]); (14, [(8, 4, 7); (9, 4, 6); (10, 4, 5)]); (15, [(8, 0, 7); (9, 0, 6); (10, 0, 5)])].
(** conversion_cling16.c:280-331 [_mzed_cling16], slices 8-11 *)
Definition cling16_8_11 : cpass := CPass false
  [(0, [(8, 60, 7); (9, 60, 6); (10, 60, 5); (11, 60, 4)]); (1, [(8, 56, 7); (9, 56, 6); (10, 56, 5); (11, 56, 4)]); (2, [(8, 52, 7); (9, 52, 6); (10, 52, 5); (11, 52, 4)]); (3, [(8, 48, 7); (9, 48, 6); (10, 48, 5); (11, 48, 4)]); (4, [(8, 44, 7); (9, 44, 6); (10, 44, 5); (11, 44, 4)]); (5, [(8, 40, 7); (9, 40, 6); (10, 40, 5); (11, 40, 4)]); (6, [(8, 36, 7); (9, 36, 6); (10, 36, 5); (11, 36, 4)]); (7, [(8, 32, 7); (9, 32, 6); (10, 32, 5); (11, 32, 4)]); (8, [(8, 28, 7); (9, 28, 6); (10, 28, 5); (11, 28, 4)]); (9, [(8, 24, 7); (9, 24, 6); (10, 24, 5); (11, 24, 4)]); (10, [(8, 20, 7); (9, 20, 6); (10, 20, 5); (11, 20, 4)]); (11, [(8, 16, 7); (9, 16, 6); (10, 16, 5); (11, 16, 4)]); (12, [(8, 12, 7); (9, 12, 6); (10, 12, 5); (11, 12, 4)]); (13, [(8, 8, 7); (9, 8, 6); (10, 8, 5); (11, 8, 4)]); (14, [(8, 4, 7); (9, 4, 6); (10, 4, 5); (11, 4, 4)]); (15, [(8, 0, 7); (9, 0, 6); (10, 0, 5); (11, 0, 4)])]
  [(0, [(8, 60, 7); (9, 60, 6); (10, 60, 5); (11, 60, 4)]); (1, [(8, 56, 7); (9, 56, 6); (10, 56, 5); (11, 56, 4)]); (2, [(8, 52, 7); (9, 52, 6); (10, 52, 5); (11, 52, 4)]); (3, [(8, 48, 7); (9, 48, 6); (10, 48, 5); (11, 48, 4)]); (4, [(8, 44, 7); (9, 44, 6); (10, 44, 5); (11, 44, 4)]); (5, [(8, 40, 7); (9, 40, 6); (10, 40, 5); (11, 40, 4)]); (6, [(8, 36, 7); (9, 36, 6); (10, 36, 5); (11, 36, 4)]); (7, [(8, 32, 7); (9, 32, 6); (10, 32, 5); (11, 32, 4)]); (8, [(8, 28, 7); (9, 28, 6); (10, 28, 5); (11, 28, 4)]); (9, [(8, 24, 7); (9, 24, 6); (10, 24, 5); (11, 24, 4)]); (10, [(8, 20, 7); (9, 20, 6); (10, 20, 5); (11, 20, 4)]); (11, [(8, 16, 7); (9, 16, 6); (10, 16, 5); (11, 16, 4)]); (12, [(8, 12, 7); (9, 12, 6); (10, 12, 5); (11, 12, 4)]); (13, [(8, 8, 7); (9, 8, 6); (10, 8, 5); (11, 8, 4)]); (14, [(8, 4, 7); (9, 4, 6); (10, 4, 5); (11, 4, 4)]); (15, [(8, 0, 7); (9, 0, 6); (10, 0, 5); (11, 0, 4)])].
(** conversion_cling16.c:332-381 [_mzed_cling16], slices 12-12 *)
Definition cling16_12_12 : cpass := CPass false
  [(0, [(12, 60, 3)]); (1, [(12, 56, 3)]); (2, [(12, 52, 3)]); (3, [(12, 48, 3)]); (4, [(12, 44, 3)]); (5, [(12, 40, 3)]); (6, [(12, 36, 3)]); (7, [(12, 32, 3)]); (8, [(12, 28, 3)]); (9, [(12, 24, 3)]); (10, [(12, 20, 3)]); (11, [(12, 16, 3)]); (12, [(12, 12, 3)]); (13, [(12, 8, 3)]); (14, [(12, 4, 3)]); (15, [(12, 0, 3)])]
  [(0, [(12, 60, 3)]); (1, [(12, 56, 3)]); (2, [(12, 52, 3)]); (3, [(12, 48, 3)]); (4, [(12, 44, 3)]); (5, [(12, 40, 3)]); (6, [(12, 36, 3)]); (7, [(12, 32, 3)]); (8, [(12, 28, 3)]); (9, [(12, 24, 3)]); (10, [(12, 20, 3)]); (11, [(12, 16, 3)]); (12, [(12, 12, 3)]); (13, [(12, 8, 3)]); (14, [(12, 4, 3)]); (15, [(12, 0, 3)])].
(** conversion_cling16.c:382-432 [_mzed_cling16], slices 12-13 *)
Definition cling16_12_13 : cpass := CPass false
  [(0, [(12, 60, 3); (13, 60, 2)]); (1, [(12, 56, 3); (13, 56, 2)]); (2, [(12, 52, 3); (13, 52, 2)]); (3, [(12, 48, 3); (13, 48, 2)]); (4, [(12, 44, 3); (13, 44, 2)]); (5, [(12, 40, 3); (13, 40, 2)]); (6, [(12, 36, 3); (13, 36, 2)]); (7, [(12, 32, 3); (13, 32, 2)]); (8, [(12, 28, 3); (13, 28, 2)]); (9, [(12, 24, 3); (13, 24, 2)]); (10, [(12, 20, 3); (13, 20, 2)]); (11, [(12, 16, 3); (13, 16, 2)]); (12, [(12, 12, 3); (13, 12, 2)]); (13, [(12, 8, 3); (13, 8, 2)]); (14, [(12, 4, 3); (13, 4, 2)]); (15, [(12, 0, 3); (13, 0, 2)])]
  [(0, [(12, 60, 3); (13, 60, 2)]); (1, [(12, 56, 3); (13, 56, 2)]); (2, [(12, 52, 3); (13, 52, 2)]); (3, [(12, 48, 3); (13, 48, 2)]); (4, [(12, 44, 3); (13, 44, 2)]); (5, [(12, 40, 3); (13, 40, 2)]); (6, [(12, 36, 3); (13, 36, 2)]); (7, [(12, 32, 3); (13, 32, 2)]); (8, [(12, 28, 3); (13, 28, 2)]); (9, [(12, 24, 3); (13, 24, 2)]); (10, [(12, 20, 3); (13, 20, 2)]); (11, [(12, 16, 3); (13, 16, 2)]); (12, [(12, 12, 3); (13, 12, 2)]); (13, [(12, 8, 3); (13, 8, 2)]); (14, [(12, 4, 3); (13, 4, 2)]); (15, [(12, 0, 3); (13, 0, 2)])].
(** conversion_cling16.c:433-484 [_mzed_cling16], slices 12-14 *)
Definition cling16_12_14 : cpass := CPass false
  [(0, [(12, 60, 3); (13, 60, 2); (14, 60, 1)]); (1, [(12, 56, 3); (13, 56, 2); (14, 56, 1)]); (2, [(12, 52, 3); (13, 52, 2); (14, 52, 1)]); (3, [(12, 48, 3); (13, 48, 2); (14, 48, 1)]); (4, [(12, 44, 3); (13, 44, 2); (14, 44, 1)]); (5, [(12, 40, 3); (13, 40, 2); (14, 40, 1)]); (6, [(12, 36, 3); (13, 36, 2); (14, 36, 1)]); (7, [(12, 32, 3); (13, 32, 2); (14, 32, 1)]); (8, [(12, 28, 3); (13, 28, 2); (14, 28, 1)]); (9, [(12, 24, 3); (13, 24, 2); (14, 24, 1)]); (10, [(12, 20, 3); (13, 20, 2); (14, 20, 1)]); (11, [(12, 16, 3); (13, 16, 2); (14, 16, 1)]); (12, [(12, 12, 3); (13, 12, 2); (14, 12, 1)]); (13, [(12, 8, 3); (13, 8, 2); (14, 8, 1)]); (14, [(12, 4, 3); (13, 4, 2); (14, 4, 1)]); (15, [(12, 0, 3); (13, 0, 2); (14, 0, 1)])]
  [(0, [(12, 60, 3); (13, 60, 2); (14, 60, 1)]); (1, [(12, 56, 3); (13, 56, 2); (14, 56, 1)]); (2, [(12, 52, 3); (13, 52, 2); (14, 52, 1)]); (3, [(12, 48, 3); (13, 48, 2); (14, 48, 1)]); (4, [(12, 44, 3); (13, 44, 2); (14, 44, 1)]); (5, [(12, 40, 3); (13, 40, 2); (14, 40, 1)]); (6, [(12, 36, 3); (13, 36, 2); (14, 36, 1)]); (7, [(12, 32, 3); (13, 32, 2); (14, 32, 1)]); (8, [(12, 28, 3); (13, 28, 2); (14, 28, 1)]); (9, [(12, 24, 3); (13, 24, 2); (14, 24, 1)]); (10, [(12, 20, 3); (13, 20, 2); (14, 20, 1)]); (11, [(12, 16, 3); (13, 16, 2); (14, 16, 1)]); (12, [(12, 12, 3); (13, 12, 2); (14, 12, 1)]); (13, [(12, 8, 3); (13, 8, 2); (14, 8, 1)]); (14, [(12, 4, 3); (13, 4, 2); (14, 4, 1)]); (15, [(12, 0, 3); (13, 0, 2); (14, 0, 1)])].
(** conversion_cling16.c:485-541 [_mzed_cling16], slices 12-15 *)
Definition cling16_12_15 : cpass := CPass false
  [(0, [(12, 60, 3); (13, 60, 2); (14, 60, 1); (15, 60, 0)]); (1, [(12, 56, 3); (13, 56, 2); (14, 56, 1); (15, 56, 0)]); (2, [(12, 52, 3); (13, 52, 2); (14, 52, 1); (15, 52, 0)]); (3, [(12, 48, 3); (13, 48, 2); (14, 48, 1); (15, 48, 0)]); (4, [(12, 44, 3); (13, 44, 2); (14, 44, 1); (15, 44, 0)]); (5, [(12, 40, 3); (13, 40, 2); (14, 40, 1); (15, 40, 0)]); (6, [(12, 36, 3); (13, 36, 2); (14, 36, 1); (15, 36, 0)]); (7, [(12, 32, 3); (13, 32, 2); (14, 32, 1); (15, 32, 0)]); (8, [(12, 28, 3); (13, 28, 2); (14, 28, 1); (15, 28, 0)]); (9, [(12, 24, 3); (13, 24, 2); (14, 24, 1); (15, 24, 0)]); (10, [(12, 20, 3); (13, 20, 2); (14, 20, 1); (15, 20, 0)]); (11, [(12, 16, 3); (13, 16, 2); (14, 16, 1); (15, 16, 0)]); (12, [(12, 12, 3); (13, 12, 2); (14, 12, 1); (15, 12, 0)]); (13, [(12, 8, 3); (13, 8, 2); (14, 8, 1); (15, 8, 0)]); (14, [(12, 4, 3); (13, 4, 2); (14, 4, 1); (15, 4, 0)]); (15, [(12, 0, 3); (13, 0, 2); (14, 0, 1); (15, 0, 0)])]
  [(0, [(12, 60, 3); (13, 60, 2); (14, 60, 1); (15, 60, 0)]); (1, [(12, 56, 3); (13, 56, 2); (14, 56, 1); (15, 56, 0)]); (2, [(12, 52, 3); (13, 52, 2); (14, 52, 1); (15, 52, 0)]); (3, [(12, 48, 3); (13, 48, 2); (14, 48, 1); (15, 48, 0)]); (4, [(12, 44, 3); (13, 44, 2); (14, 44, 1); (15, 44, 0)]); (5, [(12, 40, 3); (13, 40, 2); (14, 40, 1); (15, 40, 0)]); (6, [(12, 36, 3); (13, 36, 2); (14, 36, 1); (15, 36, 0)]); (7, [(12, 32, 3); (13, 32, 2); (14, 32, 1); (15, 32, 0)]); (8, [(12, 28, 3); (13, 28, 2); (14, 28, 1); (15, 28, 0)]); (9, [(12, 24, 3); (13, 24, 2); (14, 24, 1); (15, 24, 0)]); (10, [(12, 20, 3); (13, 20, 2); (14, 20, 1); (15, 20, 0)]); (11, [(12, 16, 3); (13, 16, 2); (14, 16, 1); (15, 16, 0)]); (12, [(12, 12, 3); (13, 12, 2); (14, 12, 1); (15, 12, 0)]); (13, [(12, 8, 3); (13, 8, 2); (14, 8, 1); (15, 8, 0)]); (14, [(12, 4, 3); (13, 4, 2); (14, 4, 1); (15, 4, 0)]); (15, [(12, 0, 3); (13, 0, 2); (14, 0, 1); (15, 0, 0)])].
