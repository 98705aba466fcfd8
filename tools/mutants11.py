from mutlib import *
s=Set('Model/Wires.v',['P_Wires'])
s('wi1','segments2','(fun s => (snd s, fst s))','(fun s => s)','reverse does nothing','C185: segments are edges')
s('wi2','segments2','sg2_is_close (snd s, fst s) t (/ 10 ^ 6))','false)','reversed edges not recognised as the same','C185')
s('wi3','segments3','is_close s t || is_close (snd s, fst s) t','is_close s t','reversed edges not recognised as the same (3D)','C185')
s('wi4','wire_length','l + e_length K e','e_length K e','only the last length','C191 length')
s('wi5','wire_at_from','Rltb abscissa (length + e_length K e)','Rleb abscissa (length + e_length K e)','<= instead of <','C191 (equivalent for joined wires; the edge chosen differs)')
s('wi6','wire_at_from','e_at K e (abscissa - length)','e_at K e abscissa','length of the previous edges not subtracted','C191')
s('wi7','wire_at_from','wire_at_from w (Some e) (length + e_length K e) abscissa','wire_at_from w (Some e) length abscissa','length not accumulated','C191')
s('wi8','wire_at_from','isclose abscissa length (/ 10 ^ 6)','true','no range check','C191: beyond the end is refused')
s('wi9','wire_at_from','Some e => Ok (e_end K e)','Some e => Ok (e_start K e)','start of the last edge','C191: the end')
s('wi10','wire_discretization','INR i / INR n','INR i / INR (n + 1)','wrong step','C191 discretization')
s('wi11','wire_discretization','(n + 1)','n','last point missing','C191 discretization')
s('wi12','wire_over','if b then Ok true else wire_over w p tol','if b then wire_over w p tol else Ok false','all instead of any','C193')
s('wi13','wire_abscissa_from','Ok (length + a)','Ok a','previous lengths forgotten','C193')
s('wi14','wire_abscissa_from','wire_abscissa_from w (length + e_length K e) p tol','wire_abscissa_from w length p tol','length not accumulated','C193')
s('wi15','wire_abscissa','else Err ValueError','else Ok 0','no error','C193')
s('wi16','wire_is_ordered','(e_end K e) (e_start K f)','(e_end K e) (e_end K f)','wrong end','C185')
s('wi17','wire_is_ordered','negb (Rltb tol (p_dist','negb (Rleb tol (p_dist','strict comparison','C185')
s('wi18','contour_is_ordered','(r ++ [first])','r','closure not checked','C185')
s('wi19','contour_is_ordered','Rleb (e_length K first) tol','false','single null edge accepted','C185')
s('wi20','contour_is_ordered','e_same K first second','false','two same edges accepted','C185')
s('wi21','extremity','|| p_close K (e_end K e) p tol','','only the start','C186')
s('wi22','attach','if p_close K last_end (e_start K e) tol then e else e_rev K e','e','never reversed','C186')
s('wi23','attach','if p_close K (e_start K first) (e_end K e) tol then e else e_rev K e','if p_close K (e_start K first) (e_end K e) tol then e_rev K e else e','reversed the wrong way','C186')
s('wi24','attach','Some ((if p_close','Some (if true then chain else (if p_close','edge lost at the front','C186: same edges')
s('wi25','attach_first','Some (c, r) => Some (c, e :: r)','Some (c, r) => Some (c, r)','skipped edges dropped','C186: same edges')
s('wi26','attach_first','Some c => Some (c, edges)','Some c => Some (c, e :: edges)','edge not removed','C186')
s('wi27','ordering_loop','None => Err NotImplementedError','None => Ok chain','no error','C186: keeps the edges')
s('wi28','ordering_primitives','negb (isclose (e_length K e) 0 tol)','true','null edges kept','C186')
s('wi29','ordering_primitives','ordering_loop (length edges) tol [e] edges','ordering_loop (length edges) tol [e] (removelast edges)','last edge dropped','C186')
s('wi30','order_wire','if wire_is_ordered w tol then Ok w else','if true then Ok w else','never ordered','C186')
s('wi31','order_contour','if b || (length w <? 2)%nat then Ok w','if b || (length w <? 4)%nat then Ok w','triangles not ordered','C186')
s('wi32','from_wires','order_wire (concat ws) (/ 10 ^ 6)','Ok (concat ws)','not ordered','C186')
s('wi33','invert','map (e_rev K) (rev w)','map (e_rev K) w','order not reversed','C190')
s('wi34','invert','map (e_rev K) (rev w)','rev w','edges not reversed','C190')
s('wi35','is_followed_by','e_end K (last w1 e)','e_end K e','end of the first edge','C185')
s('wi36','grow','None => (chain, edges)','None => (chain, [])','other edges lost','C188')
s('wi37','all_wires','c :: all_wires fuel tol r','c :: all_wires fuel tol edges','used edges not removed','C188')
s('wi38','wires_from_edges','[e] => ([[e]], [e])','[e] => ([], [e])','single edge lost','C188')
s('wi39','wires_from_edges','(all_wires (length edges) tol edges, [])','(all_wires (length edges) tol edges, edges)','argument kept (the fix)','C189 (the refutation must fail)')
s('wi40','rotate_at','after ++ rev before','after','edges before the point lost','C196')
s('wi41','rotate_at','after ++ rev before','after ++ before','edges before in the wrong order','C196')
s('wi42','rotate_at','p_close K (e_start K e) p (/ 10 ^ 6)','p_close K (e_end K e) p (/ 10 ^ 6)','starts after the point','C196')
s('wi43','is_contour_closed','e_end K (last w e)','e_end K e','first edge only','C185')
s('wi44','argmin','if Reqb a m then 0%nat else','if Reqb a m then 1%nat else','off by one','C194')
s('wi45','follow','if e_same K e last_edge then follow last_edge raw','if false then follow last_edge raw','duplicates kept','C194 (equivalent up to completeness)')
s('wi46','follow','Rltb (/ 10 ^ 3) (least distances)','false','gaps accepted','C194')
s('wi47','follow','match argmin distances with O => e | _ => e_rev K e end','e','never reversed','C194')
s('wi48','follow','match follow f raw with','match follow last_edge raw with','last edge not updated','C194')
s('wi49','reversed_follow','(e_start K f) (e_end K e)','(e_end K f) (e_start K e)','follows the wrong way','C194')
s('wi50','reorder_step','if reversed_follow (rev raw) then Ok (Some (rev raw))','if reversed_follow (rev raw) then Ok (Some raw)','order kept','C194')
s('wi51','reorder_step','1%nat => (e_rev K e0, e1)','1%nat => (e0, e_rev K e1)','wrong edge reversed','C194')
s('wi52','reorder_step','if Rltb (/ 10 ^ 3) (least distances) then Ok None','if false then Ok None','first gap accepted','C194')
s('wi53','polyline','do s <- segment2 p q;','do s <- segment2 q p;','segments reversed','C198')
s('wi54','open_sides','if is_close2 p q (/ 10 ^ 6) then open_sides r','if false then open_sides r','close points kept (the fix of the gap)','C199 (the refutation must fail)')
s('wi55','contour_from_points','(length pts <? 3)%nat','(length pts <? 4)%nat','triangles refused','C198')
s('wi56','contour_from_points','then Ok l else','then (do s <- segment2 q p; Ok (l ++ [s])) else','closing segment always added','C198')
s('wi57','contour_from_points','segment2 q p','segment2 p q','closing segment reversed','C198')
save('mutants11',s)
