import json
M=[]
def m(file,de,old,new,edit,claim,**k): M.append(dict(file=file,**{'def':de},old=old,new=new,edit=edit,claim=claim,**k))
m('Span','from_indices','| Some v => if 0 <=? v then Z.min n v else Z.max 0 (n + v)\n           end in\n  (a','| Some v => if 0 <=? v then v else Z.max 0 (n + v)\n           end in\n  (a','stop not clamped to the length','C01 stop is clamped like a slice')
m('Span','from_indices','(a, Z.max a b)','(a, b)','drop the stop >= start repair','C01 start <= stop')
m('Span','offset','(fst rv <? 0) ||','(fst rv <=? 0) ||','reject start 0 after an offset','C02 offset raises exactly when negative')
m('ItoStr','ito_of_ito','(from_indices (ito_len src) start stop)','(from_indices (zlen (f_str src)) start stop)','clamp to the string instead of the source Ito','C03 the new Ito lies inside src')
m('ItoStr','clone_f','Some (odflt stop (f_stop i))','Some (odflt stop (zlen (f_str i)))','default stop of clone is the end of the string','C17 clone keeps the span')
m('ItoStr','ito_iter','(Some k) (Some (k + 1)) None)) (zrange (f_start i) (f_stop i))','(Some k) (Some (k + 1)) None)) (zrange (f_start i) (f_stop i - 1))','iteration stops one early','C04 iteration yields every character')
m('ItoStr','getitem_slice','| None | Some 1 =>','| None =>','step 1 rejected','C04 slices with step 1 work')
m('ItoStr','str_find','Ok (if rv =? -1 then rv else rv - f_start i).\n(** ito.py:1028','Ok (rv - f_start i).\n(** ito.py:1028','-1 shifted by start when nothing is found','C06 find equals str.find')
m('ItoStr','str_rindex','do rv <- py_rindex_of','do rv <- py_index_of','rindex searches from the left','C06 rindex equals str.rindex')
m('ItoStr','affix_reject','if ls <? st then true','if ls <=? st then true','start = len rejected','C07 startswith at the very end')
m('ItoStr','str_eq','if ito_len i =? zlen v then','if zlen v <=? ito_len i then','str_eq true for a prefix','C07 str_eq is text equality')
m('ItoStr','cased_loop','then if test_at i low k then cased_loop i alpha low true ks\' else false','then if test_at i low k then cased_loop i alpha low true ks\' else cased_loop i alpha low alphas ks\'','islower skips upper-case letters','C08 islower')
m('ItoStr','str_lstrip','if k =? f_start i then RSelf else RNew (clone_f i (Some k) None None)','if k =? f_start i then RSelf else RNew (clone_f i (Some (k + 1)) None None)','lstrip drops one character more','C09 lstrip equals str.lstrip')
m('ItoStr','str_rstrip','(f_stop i - 1) in','(f_stop i) in','rstrip starts beyond the end','C09 rstrip equals str.rstrip')
m('ItoStr','split_loop','do r <- split_loop n self sep (j + zlen sep) (m - 1);','do r <- split_loop n self sep (j + 1) (m - 1);','split advances by one instead of len(sep)','C11 split equals str.split')
m('ItoStr','str_rsplit','self sep (f_stop self) m [];','self sep (f_stop self - 1) m [];','rsplit ignores the last character','C11 rsplit equals str.rsplit')
m('ItoStr','rsplit_loop','rsplit_loop n self sep j (m - 1)','rsplit_loop n self sep j m','maxsplit not counted in rsplit','C11 maxsplit')
m('ItoStr','nn_loop','| Some nw => if isspace c then Ok (Some (from_idxs nw k))','| Some nw => if isspace c then Ok (Some (from_idxs nw (k + step)))','token includes one white space','C12 tokens of white-space split')
m('ItoStr','str_splitlines','if ito_len l =? 0 then rev r else rv','rv','keep the empty last line','C13 splitlines equals str.splitlines')
m('ItoStr','linebreak_matches','then (pos, pos + 2) :: linebreak_matches n s (pos + 2) stop','then (pos, pos + 1) :: linebreak_matches n s (pos + 1) stop','CRLF counted as two breaks','C13 CRLF is one break')
m('ItoStr','str_removeprefix','(Some (zlen p)) None (f_desc i)','(Some 0) None (f_desc i)','prefix not removed','C14 removeprefix')
m('ItoStr','split_iter_loop','let stop := if keep then snd m else fst m in','let stop := if keep then fst m else snd m in','keep_seps swapped','C15 split_iter pieces')
m('ItoStr','split_iter','if i <? f_stop self then fst r ++','if i + 1 <? f_stop self then fst r ++','last one-character piece lost','C15 last piece')
m('ItoStr','to_line_col','(Some 0) (Some prior) + 2','(Some 0) (Some prior) + 1','line number off by one','C16 line number')
m('ItoStr','to_line_col','f_start i - (prior + zlen eol) + 1','f_start i - prior','column wrong for long line ends','C16 column')
m('ItoStr','from_substrings','let r := from_substrings s k j subs\' desc in','let r := from_substrings s i\' j subs\' desc in','next search starts inside the previous piece','C32 pieces are disjoint')
m('Heap','bisect_left','if key mid <? x then','if key mid <=? x then','bisect_left behaves like bisect_right','C18 add finds equal starts')
m('Heap','between_ok','(a <? key_at stops (i - 1))','(a + 1 <? key_at stops (i - 1))','overlap by one with the previous sibling allowed','C18 siblings do not overlap')
m('Heap','between_ok','(key_at starts i <? b)','false','no check against the next sibling','C18 siblings do not overlap')
m('Heap','set_parent_ok','|| (h_stop h p <? h_stop h c)','','child may stick out at the end','C19 children lie in the parent')
m('Heap','set_parent_ok','else negb (c =? p)%nat','else true','an Ito may become its own child','C20 no self child')
m('Heap','kids_add1','| Some _ => (h, Err ValueError)\n  | None =>\n    let ks','| Some _ | None =>\n    let ks','no check that the child is parentless','C19 unique parent')
m('Heap','kids_add1','(set_kids h1 p (insert_at i c (n_kids (nd h1 p))), Ok tt)\n  end.\n(** ito.py:1532','(set_kids h1 p (insert_at (S i) c (n_kids (nd h1 p))), Ok tt)\n  end.\n(** ito.py:1532','inserted one position too far right','C18 children stay sorted')
m('Heap','kids_del_at','let h1 := clear_pars h (map (fun k => nth k ks 0%nat) pos) in','let h1 := h in','removed children keep their parent','C19 parent links agree with children')
m('Heap','kids_remove','if found && (nth i ks 0 =? c)%nat then','if found then','remove deletes another Ito with the same start','C22 remove only removes the given Ito')
m('Heap','kids_pop','(h1, Ok (nth i (n_kids (nd h p)) 0%nat))','(h1, Ok (nth i (n_kids (nd h1 p)) 0%nat))','pop returns the element after the removed one','C22 pop returns the removed child')
m('Heap','kids_set_int','kids_put h1 p (Z.to_nat start) c','kids_put h1 p 0 c','setitem inserts at the front','C21 setitem replaces in place')
m('Heap','clone_h','(fun h c => clone_h n h c None None None true)','(fun h c => clone_h n h c None None None false)','clone copies only one level of children','C17 clone copies the whole subtree')
m('Heap','clone_h','obind (kids_add h2 rv cs) (fun h3 _ => (h3, Ok rv))','(h2, Ok rv)','cloned children are not attached','C17 clone copies the children')
m('Heap','get_root','Some p => get_root n h p | None => Ok i','Some p => Ok p | None => Ok i','get_root returns the parent','C36 get_root')
m('Heap','descends_from','if (p =? a)%nat then Ok true else descends_from n h p a','if (i =? a)%nat then Ok true else descends_from n h p a','an Ito descends from itself','C36 descends_from')
m('Heap','walk_levels','(if reverse then rev (n_kids (nd h i)) else n_kids (nd h i))','(n_kids (nd h i))','reverse does not reverse siblings','C35 reverse is the reversed sequence')
m('Heap','walk_levels','(level + 1) reverse;','level reverse;','levels do not increase','C35 levels')
m('AddHier','hier_rest','((a <? key_at starts j) && (key_at starts j <? b)) then AErr','false then AErr','no overlap check on the right','C24 crossing spans are rejected')
m('AddHier','hier_action','else if a <? key_at stops (i - 1) then AErr','else if a + 1 <? key_at stops (i - 1) then AErr','overlap by one allowed on the left','C24 crossing spans are rejected')
m('AddHier','hier_action','if b <=? key_at stops (i - 1) then ARec (i - 1)','if b <? key_at stops (i - 1) then ARec (i - 1)','no recursion when the stops agree','C23 contained Ito goes below')
m('AddHier','hplace','skipn j ks)\n                 else','skipn i ks)\n                 else','wrapped children also stay siblings','C23 nodes after adding')
m('AddHier','add_hier1','kids_add h1 c (firstn (j - i) (skipn i ks))))','kids_add h1 c (firstn (j - i - 1) (skipn i ks))))','last wrapped child is lost','C23 no node is lost')
m('AddHier','key_deeper','f k <=? f c','f c <=? f k','key comparison reversed','C26 key decides between equal spans')
m('AddHier','hadd','(rev (t_kids c)) ks','(t_kids c) ks','descendants flattened left to right','C25 order of flattening (should not matter for nonempty spans)')
m('Util','unesc_loop','if esc then unesc_loop s off chars e r false','if esc then unesc_loop s off chars e r (c =? e)','escaped escape still escapes','C39 find_unescaped')
m('Util','unesc_loop','(i - off :: ys, f)','(i :: ys, f)','absolute instead of relative positions','C39 positions are relative to src')
m('Util','usplit_loop','usplit_loop u (i + 1) r err','usplit_loop u i r err','separator kept in the next piece','C39 split pieces')
m('Util','bal_loop','| [p] => gyield (p, i + 1)','| [p] => gyield (p, i)','right delimiter lost','C40 segments end with the right character')
m('Util','bal_loop','| None => match lefts with [] => ([], None) | _ => graise ValueError end','| None => ([], None)','unclosed left delimiter accepted','C40 unbalanced input raises')
m('Util','escapes_loop','(i - 1) :: escapes_loop','i :: escapes_loop','position of the escaped character','C62 positions of escapes')
m('Util','escape','(py_replace_char 92 [92; 92] v)','v','backslash not escaped','C38 descape(escape v) = v')
m('Util','must_escape','lit "\\[]/,{}"','lit "\\[]/{}"','comma not escaped','C38 comma lists round-trip')
m('Util','descape_loop','if esc then Err ValueError else Ok rv','Ok rv','dangling escape accepted','C38 dangling escape raises')
m('Combin','str_partition','let k2 := j + zlen sp in\n           obind (clone_h (depth_fuel h) h i None (Some j) None false) (fun h1 a =>\n           obind (clone_h (depth_fuel h1) h1 i (Some j) (Some k2) None false) (fun h2 b =>\n           obind (clone_h (depth_fuel h2) h2 i (Some k2) None None false) (fun h3 c =>\n           (h3, Ok (a, b, c)))))\n    end\n  end.\n(** ito.py:1153','let k2 := j + 1 in\n           obind (clone_h (depth_fuel h) h i None (Some j) None false) (fun h1 a =>\n           obind (clone_h (depth_fuel h1) h1 i (Some j) (Some k2) None false) (fun h2 b =>\n           obind (clone_h (depth_fuel h2) h2 i (Some k2) None None false) (fun h3 c =>\n           (h3, Ok (a, b, c)))))\n    end\n  end.\n(** ito.py:1153','separator piece has length 1','C10 texts of partition')
m('Combin','gaps_loop','else if fst cur <? snd last then gaps_loop basis off endd desc zw cur r','else if fst cur <? snd last then gaps_loop basis off endd desc zw last r','overlapping non-gap forgotten','C30 gaps avoid every non-gap')
m('Combin','gaps_loop','if fst cur <? fst last then graise ValueError','if false then graise ValueError','unordered non-gaps accepted','C30 unordered input raises')
m('Combin','from_gaps','(Some (Z.min (fst last) endd))','(Some (fst last))','first gap not clipped to src','C30 gaps lie in src')
m('Combin','invert_children','else match from_gaps (UIto (n_f (nd h1 rv)))','else match from_gaps (UStr (f_str (n_f (nd h1 rv))))','gaps of the whole string','C31 gaps lie in i')
m('Combin','strip_to_children','(h_start h i <? start) || (stop <? h_stop h i)','(h_start h i <? start)','no trimming at the end only','C34 strip trims both ends')
m('Combin','extent','(Z.max stop (f_stop x))','(f_stop x)','join takes the last stop','C33 greatest stop')
m('Combin','extent','else Err ValueError\n  end.','else extent s start stop r\n  end.','other strings are skipped','C33 differing strings raise')
m('Combin','gk_from_filter','if filt (snd igk) then [snd igk]\n','if filt (snd igk) then [KInt (Z.of_nat (fst igk))]\n','keys returned as numbers','C29 accepted keys')
m('Combin','gk_validate_loop','| Some _ => Err ValueError\n    | None => gk','| Some _ | None => gk','duplicate groups accepted','C29 validate')
m('Combin','cap_le','(snd y <=? snd x)','(snd x <=? snd y)','inner captures first','C27 preorder of the forest')
m('Combin','pop_until','|| (h_stop h p <? h_stop h c)','','stack not popped when the parent ends earlier','C27 nearest container')
m('Combin','fm_loop','fm_loop h1 s df [c] (roots ++ [c]) r','fm_loop h1 s df [c] [c] r','earlier roots forgotten','C27 all captures in the forest')
m('Combin','fr_loop','if k <=? zlen rv\' then','if k <? zlen rv\' then','one match too many is read','C28 laziness')
m('Combin','from_re','if 0 <? k then firstn (Z.to_nat k) (fst r) else []','fst r','limit does not truncate','C28 limit')
m('Combin','key_eqb','eqb_oz (f_vf f) (f_vf g) &&','','value functions ignored in ==','C37 == depends on value_func')
m('Combin','op_eq','if negb (c_cls a =? c_cls b)%nat && sub (c_cls b) (c_cls a) then ito_eq sub b a else ito_eq sub a b','ito_eq sub a b','no reflected call','C37 symmetry')
json.dump(M,open('/tmp/mutants_1.json','w'),indent=0); print(len(M))
