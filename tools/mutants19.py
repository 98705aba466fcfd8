from mutlib import Set, save
h = Set('Model/HypPara.v', ['P_HypPara'])
h('hy1','hyperbola_eq','if negb frames then false else if','if','frames not compared','C304')
h('hy2','hyp_x','y ^ 2 / b ^ 2 + 1','y ^ 2 / b ^ 2 - 1','sign of the unit','C297')
h('hy3','hyp_x','* a ^ 2','* a','axis to the power 1','C297')
h('hy4','sample_range','nothing lo && nothing hi','nothing lo || nothing hi','default range with one bound','C297')
h('hy5','sample_range','Some a, Some b => Ok (linspace_n a b n)','Some a, Some b => Ok (linspace_n a b (S n))','one point too many','C297')
h('hy6','hyperbola2_points','hyp_x (ha h) (hb h) y','hyp_x (hb h) (ha h) y','swapped axes','C297')
h('hy7','hyperbola3_points','hyp_x (ha3 h) (hb3 h) y) y 0','hyp_x (ha3 h) (hb3 h) y) y 1','points out of the plane','C297')
h('hy8','hyperbola2_point_belongs','hb h ^ 1','hb h ^ 2','the error repaired','C298 (refutation)')
h('hy9','hyperbola3_point_belongs','- y3 q','+ y3 q','sign: an ellipse','C299')
h('hy10','hyp_dx_dy','a ^ 2 * y / (b','a * y / (b','derivative scaled','C302')
h('hy11','hyp_dx_dy','/ b ^ 2 + a ^ 2','/ b ^ 2 - a ^ 2','other square root','C302')
h('hy12','hyperbola2_tangent','(V2 dx_dy 1)','(V2 1 dx_dy)','swapped components','C302')
h('hy13','hyperbola2_tangent','(y2 p) in','(y2 q) in','ordinate in the frame','C303 (refutation)')
h('hy14','hyperbola2_line_intersections','if Rltb (c ^ 2)','if Rltb (c)','height not squared','C300')
h('hy15','hyperbola2_line_intersections','if Rltb 0 x1','if Rltb x1 0','other branch','C300')
h('hy16','hyperbola2_line_intersections','(- b_quad - delta)','(- b_quad + delta)','twice the same root','C300')
h('hy17','hyperbola2_line_intersections','map (frame2_l2g (hf h)) found','found','not mapped back','C300')
h('hy18','hyperbola2_line_intersections','let c_quad := ha h ^ 2 * (hb h ^ 2 + c ^ 2)','let c_quad := ha h ^ 2 * (hb h ^ 2 - c ^ 2)','sign in the equation','C300')
h('hy19','hyperbola2_line_intersections','(if Rltb 0 x2 then [V2 x2 y2] else [])','[]','second point dropped','C300')
h('hy20','own_frame2','B2 x y','B2 y x','swapped axes','C302, C308')
h('hy21','planar_tangent','add2 p2 t','t','tangent at the origin','C302, C308')
h('hy22','par_y','2 * f','4 * f','half as high','C305')
h('hy23','par_a','1 / (4 * f)','1 / (2 * f)','coefficient','C305')
h('hy24','parabola2_points','V2 x (par_y','V2 (par_y (focal p) x) (par_y','abscissa','C305')
h('hy25','parabola3_points','(par_y (focal3 p) x) 0','0 (par_y (focal3 p) x)','swapped coordinates','C305')
h('hy26','parabola2_point_belongs','* x2 s ^ 2','* x2 s','not squared','C305')
h('hy27','parabola3_point_belongs','* x3 s ^ 2','* z3 s ^ 2','other coordinate','C299')
h('hy28','parabola2_line_intersections','if Rltb (- 4 * a * c) (m ^ 2) then','if Rltb (4 * a * c) (m ^ 2) then','sign of the height','C306')
h('hy29','parabola2_line_intersections','V2 x2 (m * x2 + c)]','V2 x1 (m * x1 + c)]','twice the same point','C306')
h('hy30','parabola2_line_intersections','let x1 := (m + delta) / (2 * a)','let x1 := (m + delta) / a','factor','C306')
h('hy31','parabola2_line_intersections','Ok [V2 x (m * x + c)]','Ok []','tangent lines lost','C307')
h('hy32','parabola2_tangent','2 * par_a','par_a','half the slope','C308')
h('hy33','parabola2_tangent','V2 1 dy_dx','V2 (- 1) dy_dx','reversed component','C308')
h('hy34','parabola2_trim','Ok [p1; i; p2]','Ok [p2; i; p1]','reversed arc (same set of points)','C309')
h('hy35','parabola2_trim','(p2, add2 p2 t2)','(p2, add2 p2 t1)','tangent at the other end','C309')
p = Set('Model/Profiles.v', ['P_Profiles'])
p('pf1','new_extruded','Rltb (polygon_area outer) (polygon_area c)','Rltb (polygon_area c) (polygon_area outer)','swapped areas','C312')
p('pf2','new_extruded','existsb','forallb','all inner contours must be larger','C312')
p('pf3','extruded_area','- sumR','+ sumR','holes added','C310')
p('pf4','extruded_volume','extruded_area e *','polygon_area (eouter e) *','holes forgotten','C310')
p('pf5','extrusion_vector','bw (fb3','bu (fb3','other axis','C310')
p('pf6','segment_extrusion','V2 length_1 length_2; V2 0 length_2','V2 0 length_2; V2 length_1 length_2','crossed corners','C312')
p('pf7','segment_extrusion','do v <- unit_vector3 vector;','do v <- Ok vector;','direction not normalized','C312')
p('pf8','segment_extrusion','let length_2 := norm3 vector','let length_2 := length_1','square faces','C312')
p('pf9','revolved_volume','Err AttributeError','Ok 0','a value','C313')
save('mutants19', h, p)
