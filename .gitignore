*.vo
*.vok
*.vos
*.glob
.*.aux
*.aux
Makefile*
.Makefile.d
.lia.cache
.nia.cache
rocq/Makefile
rocq/Makefile.conf
