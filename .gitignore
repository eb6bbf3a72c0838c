*.vo
*.vok
*.vos
*.glob
*.aux
.lia.cache
.nia.cache
rocq/Makefile
rocq/Makefile.conf
.Makefile.d
rocq/.Makefile.d
