done("C236","partial",["C236_read","C236_get","C236_remove","C236_insert","C236_values","C236_twice_refuted"],"Proved for every tag that is read and every sequence of these calls. If a description is changed in place by retain_mut two texts can have the same description, and removing it leaves the second.")
done("C237","partial",["C237_remove","C237_insert","C237_icons_refuted","C237_twice_refuted"],"insert does not look at the type of a picture: two icons that differ stay there. insert_picture does not look for the same picture.")
